(** T_graph.v -- execution order of features (feature/utils.py, feature/kit.py). *)
From Coq Require Import String.
From Verif Require Import Base M_features S_features P_weights P_features P_features2 M_transforms M_kit S_kit M_graph T_kit.
Open Scope Z_scope.

(* ------------------------------------------------------------------ *)
(** ** Spec: graphs and orders *)
(** A graph as the code builds it: no repeated nodes or edges, edges between nodes. *)
Definition well_formed (g : graph) : Prop :=
  NoDup (g_nodes g) /\ (forall n, In n (g_nodes g) -> NoDup (g_succ g n)) /\
  (forall n d, In n (g_nodes g) -> In d (g_succ g n) -> In d (g_nodes g)).
(** n stands before d in the list. *)
Definition before (n d : string) (l : list string) : Prop := exists l1 l2, l = l1 ++ d :: l2 /\ In n l1.
(** No cycles: nodes can be ranked such that edges go upwards. *)
Definition acyclic (g : graph) : Prop :=
  exists rank : string -> nat, forall n d, In n (g_nodes g) -> In d (g_succ g n) -> (rank n < rank d)%nat.

(* ------------------------------------------------------------------ *)
Lemma mem_iff n l : mem n l = true <-> In n l.
Proof.
  unfold mem. rewrite existsb_exists. split.
  - intros [m [H E]]. apply String.eqb_eq in E. now subst.
  - intro H. exists n. split; [auto|apply String.eqb_refl].
Qed.
Lemma mem_false n l : mem n l = false <-> ~ In n l.
Proof. rewrite <- mem_iff. destruct (mem n l); split; congruence. Qed.

Lemma relax_fold ds deg z : NoDup ds ->
  (forall m, fst (fold_left relax ds (deg, z)) m = if mem m ds then deg m - 1 else deg m) /\
  snd (fold_left relax ds (deg, z)) = z ++ filter (fun d => deg d =? 1) ds.
Proof.
  revert deg z. induction ds as [|d ds IH]; intros deg z ND; [cbn; rewrite app_nil_r; auto|].
  inversion ND as [|? ? N1 N2]; subst. cbn [fold_left]. unfold relax at 2 4. rewrite String.eqb_refl.
  set (deg' := fun m => if String.eqb m d then deg d - 1 else deg m). destruct (IH deg' (if deg d - 1 =? 0 then z ++ [d] else z) N2) as [A B].
  split.
  - intro m. rewrite A. unfold deg'. cbn [mem existsb]. fold (mem m ds). destruct (String.eqb_spec m d) as [->|]; [|reflexivity].
    cbn [orb]. apply mem_false in N1. now rewrite N1.
  - rewrite B. cbn [filter]. assert (E : filter (fun d0 => deg' d0 =? 1) ds = filter (fun d0 => deg d0 =? 1) ds).
    { apply filter_ext_in. intros a Ha. unfold deg'. destruct (String.eqb_spec a d) as [->|]; [contradiction|reflexivity]. }
    rewrite E. destruct (Z.eqb_spec (deg d - 1) 0), (Z.eqb_spec (deg d) 1); try lia; [now rewrite <- app_assoc|reflexivity].
Qed.
(** Number of predecessors of d that are not in [done]. *)
Definition open_preds (g : graph) (done : list string) (d : string) : Z :=
  Z.of_nat (length (filter (fun n => mem d (g_succ g n) && negb (mem n done))%bool (g_nodes g))).
Lemma open_preds_zero g done d : open_preds g done d = 0 <-> forall n, In n (g_nodes g) -> In d (g_succ g n) -> In n done.
Proof.
  unfold open_preds. split.
  - intros H n Hn Hd. destruct (mem n done) eqn:E; [now apply mem_iff|]. exfalso.
    assert (I : In n (filter (fun n => mem d (g_succ g n) && negb (mem n done))%bool (g_nodes g))).
    { apply filter_In. split; [auto|]. apply mem_iff in Hd. now rewrite Hd, E. }
    destruct (filter _ _); [destruct I|cbn in H; lia].
  - intro H. destruct (filter _ _) as [|n l] eqn:E; [reflexivity|]. exfalso.
    assert (I : In n (filter (fun n => mem d (g_succ g n) && negb (mem n done))%bool (g_nodes g))) by (rewrite E; now left).
    apply filter_In in I. destruct I as [I1 I2]. apply andb_prop in I2. destruct I2 as [I2 I3]. apply mem_iff in I2.
    apply H in I2; auto. apply mem_iff in I2. rewrite I2 in I3. discriminate.
Qed.
Lemma filter_count_split {A} (p q : A -> bool) l : length (filter p l) = (length (filter (fun x => p x && q x)%bool l) + length (filter (fun x => p x && negb (q x))%bool l))%nat.
Proof. induction l as [|x l IH]; [reflexivity|]. cbn. destruct (p x), (q x); cbn; lia. Qed.
Lemma filter_one (p : string -> bool) n l : NoDup l -> In n l -> length (filter (fun x => p x && String.eqb x n)%bool l) = if p n then 1%nat else 0%nat.
Proof.
  induction l as [|x l IH]; intros ND I; [destruct I|]. inversion ND as [|? ? N1 N2]; subst. cbn [filter].
  destruct (String.eqb_spec x n) as [->|Nx].
  - assert (E : filter (fun x => p x && String.eqb x n)%bool l = []).
    { clear -N1. induction l as [|y l IH]; [reflexivity|]. cbn [filter]. destruct (String.eqb_spec y n) as [->|]; [exfalso; apply N1; now left|].
      rewrite Bool.andb_false_r. apply IH. intro; apply N1; now right. }
    rewrite Bool.andb_true_r. destruct (p n); cbn; now rewrite E.
  - rewrite Bool.andb_false_r. apply IH; auto. destruct I; [contradiction|auto].
Qed.
Lemma open_preds_step g done n d : NoDup (g_nodes g) -> In n (g_nodes g) -> ~ In n done ->
  open_preds g (done ++ [n]) d = open_preds g done d - (if mem d (g_succ g n) then 1 else 0).
Proof.
  intros ND In_ Nn. unfold open_preds.
  rewrite (filter_count_split (fun m => mem d (g_succ g m) && negb (mem m done))%bool (fun m => String.eqb m n) (g_nodes g)).
  rewrite (filter_one (fun m => mem d (g_succ g m) && negb (mem m done))%bool n) by auto.
  assert (E : filter (fun m => mem d (g_succ g m) && negb (mem m (done ++ [n])))%bool (g_nodes g) =
              filter (fun m => mem d (g_succ g m) && negb (mem m done) && negb (String.eqb m n))%bool (g_nodes g)).
  { apply filter_ext. intro m. unfold mem at 2. rewrite existsb_app. cbn [existsb]. rewrite Bool.orb_false_r, Bool.negb_orb. now rewrite Bool.andb_assoc. }
  rewrite E. apply mem_false in Nn. rewrite Nn. destruct (mem d (g_succ g n)); cbn; lia.
Qed.
Record inv (g : graph) (deg : string -> Z) (zero order : list string) : Prop := {
  i_nodup : NoDup (order ++ zero);
  i_nodes : forall n, In n (order ++ zero) -> In n (g_nodes g);
  i_deg : forall d, In d (g_nodes g) -> deg d = open_preds g order d;
  i_zero : forall d, In d (g_nodes g) -> (In d (order ++ zero) <-> deg d = 0);
  i_order : forall n d, In n (g_nodes g) -> In d (g_succ g n) -> In d order -> before n d order }.
Lemma before_app n d l r : before n d l -> before n d (l ++ r).
Proof. intros [l1 [l2 [-> H]]]. exists l1, (l2 ++ r). rewrite <- app_assoc. auto. Qed.
Lemma inv_step g deg n z order : well_formed g -> inv g deg (n :: z) order ->
  inv g (fst (fold_left relax (g_succ g n) (deg, z))) (snd (fold_left relax (g_succ g n) (deg, z))) (order ++ [n]).
Proof.
  intros [W1 [W2 W3]] [I1 I2 I3 I4 I5].
  assert (Nn : In n (g_nodes g)) by (apply I2; apply in_or_app; right; now left).
  destruct (relax_fold (g_succ g n) deg z (W2 n Nn)) as [A B]. rewrite B.
  assert (No : ~ In n order). { intro K. apply NoDup_remove_2 in I1. apply I1. apply in_or_app. auto. }
  set (Fz := filter (fun d => deg d =? 1) (g_succ g n)).
  assert (FzP : forall d, In d Fz <-> In d (g_succ g n) /\ deg d = 1).
  { intro d. unfold Fz. rewrite filter_In. now rewrite Z.eqb_eq. }
  assert (Dpos : forall d, In d (g_succ g n) -> 1 <= deg d).
  { intros d Hd. rewrite I3 by (eapply W3; eauto). assert (open_preds g order d <> 0); [|unfold open_preds in *; lia].
    intro K. apply No. eapply open_preds_zero; eauto. }
  constructor.
  - replace ((order ++ [n]) ++ z ++ Fz) with ((order ++ n :: z) ++ Fz) by (rewrite <- !app_assoc; reflexivity).
    assert (Ndf : NoDup Fz) by (apply NoDup_filter; auto).
    assert (Dis : forall d, In d Fz -> ~ In d (order ++ n :: z)).
    { intros d Hd K. apply FzP in Hd. destruct Hd as [Hd E]. apply I4 in K; [lia|eapply W3; eauto]. }
    clear -I1 Ndf Dis. induction (order ++ n :: z) as [|y l IH]; [exact Ndf|]. cbn. inversion I1 as [|? ? M1 M2]; subst. constructor.
    + intro K. apply in_app_or in K. destruct K as [K|K]; [contradiction|]. apply (Dis y K). now left.
    + apply IH; auto. intros d Hd K. apply (Dis d Hd). now right.
  - intros m Hm. rewrite <- app_assoc in Hm. cbn [app] in Hm. replace (order ++ n :: z ++ Fz) with ((order ++ n :: z) ++ Fz) in Hm by (rewrite <- app_assoc; reflexivity).
    apply in_app_or in Hm. destruct Hm as [Hm|Hm]; [auto|]. apply FzP in Hm. eapply W3; [exact Nn|tauto].
  - intros d Hd. rewrite A, open_preds_step by auto. rewrite I3 by auto. destruct (mem d (g_succ g n)); lia.
  - intros d Hd. replace ((order ++ [n]) ++ z ++ Fz) with ((order ++ n :: z) ++ Fz) by (rewrite <- !app_assoc; reflexivity).
    rewrite A. rewrite in_app_iff, (I4 d Hd), FzP. destruct (mem d (g_succ g n)) eqn:E.
    + apply mem_iff in E. specialize (Dpos d E). split; [intros [K|[_ K]]; lia|]. intro. right. split; [auto|lia].
    + apply mem_false in E. split; [intros [K|[K _]]; [auto|contradiction]|auto].
  - intros m d Hm Hd Ho. apply in_app_or in Ho. destruct Ho as [Ho|[<-|[]]]; [apply before_app; auto|].
    exists order, []. split; [reflexivity|]. assert (E : deg n = 0) by (apply I4; [auto|apply in_or_app; right; now left]).
    rewrite I3 in E by auto. eapply open_preds_zero; eauto.
Qed.
Lemma kahn_inv g : well_formed g -> forall fuel deg zero order, inv g deg zero order ->
  exists deg', inv g deg' (snd (kahn g fuel deg zero order)) (fst (kahn g fuel deg zero order)) /\
    (snd (kahn g fuel deg zero order) = [] \/ length (fst (kahn g fuel deg zero order)) = (length order + fuel)%nat).
Proof.
  intro W. induction fuel as [|fuel IH]; intros deg zero order I; cbn [kahn].
  - exists deg. cbn [fst snd]. split; [auto|]. right. lia.
  - destruct zero as [|n z]; [exists deg; cbn [fst snd]; auto|]. pose proof (inv_step g deg n z order W I) as S.
    destruct (fold_left relax (g_succ g n) (deg, z)) as [deg' z']. cbn [fst snd] in S. destruct (IH deg' z' (order ++ [n]) S) as [d2 [J K]].
    exists d2. split; [auto|]. destruct K as [K|K]; [auto|]. right. rewrite K, app_length. cbn. lia.
Qed.
Lemma topo_inv g : well_formed g -> snd (topo_sort g) = [] /\ exists deg, inv g deg [] (fst (topo_sort g)).
Proof.
  intro W. assert (I0 : inv g (indegree g) (filter (fun n => indegree g n =? 0) (g_nodes g)) []).
  { destruct W as [W1 [W2 W3]]. constructor; cbn [app].
    - now apply NoDup_filter.
    - intros n H. now apply filter_In in H.
    - intros d Hd. unfold indegree, open_preds. f_equal. f_equal. apply filter_ext. intro n. cbn. now rewrite Bool.andb_true_r.
    - intros d Hd. rewrite filter_In, Z.eqb_eq. tauto.
    - intros n d _ _ []. }
  destruct (kahn_inv g W (length (g_nodes g)) _ _ _ I0) as [deg [I K]]. fold (topo_sort g) in I, K.
  assert (Z0 : snd (topo_sort g) = []).
  { destruct K as [K|K]; [auto|]. destruct I as [I1 I2 _ _ _]. assert (L : (length (fst (topo_sort g) ++ snd (topo_sort g)) <= length (g_nodes g))%nat).
    { apply NoDup_incl_length; auto. } rewrite app_length in L. cbn in K. destruct (snd (topo_sort g)); [auto|cbn in L; lia]. }
  split; [auto|]. exists deg. now rewrite Z0 in I.
Qed.
(** Kahn's algorithm: the loop ends with an empty queue; the order has no repetition, only
    nodes, and every listed node comes after all its predecessors; without cycles it lists
    all nodes. *)
Theorem C66_topological_sort : forall g, well_formed g ->
  snd (topo_sort g) = [] /\ NoDup (fst (topo_sort g)) /\ (forall n, In n (fst (topo_sort g)) -> In n (g_nodes g)) /\
  (forall n d, In n (g_nodes g) -> In d (g_succ g n) -> In d (fst (topo_sort g)) -> before n d (fst (topo_sort g))) /\
  (acyclic g -> Permutation (fst (topo_sort g)) (g_nodes g)).
Proof.
  intros g W. destruct (topo_inv g W) as [Z0 [deg [I1 I2 I3 I4 I5]]]. rewrite app_nil_r in *.
  split; [auto|]. split; [auto|]. split; [auto|]. split; [auto|]. intros [rank Hr]. apply NoDup_Permutation; [auto|apply W|].
  intro n. split; [auto|]. revert n.
  assert (G : forall k n, (rank n < k)%nat -> In n (g_nodes g) -> In n (fst (topo_sort g))).
  { induction k as [|k IH]; intros n Hk Hn; [lia|]. apply I4; auto. rewrite I3 by auto. apply open_preds_zero.
    intros m Hm Hd. apply IH; auto. specialize (Hr m n Hm Hd). lia. }
  intros n Hn. apply (G (S (rank n))); auto.
Qed.
(** A node that lies on a cycle, or behind one, is left out without an error. *)
Theorem C66_cycle_dropped : forall g (cyc : string -> Prop), well_formed g ->
  (forall d, cyc d -> In d (g_nodes g) /\ exists n, cyc n /\ In d (g_succ g n)) ->
  forall d, cyc d -> ~ In d (fst (topo_sort g)).
Proof.
  intros g cyc W Hc d Cd Hd. destruct (C66_topological_sort g W) as [_ [ND [_ [Hb _]]]]. set (l := fst (topo_sort g)) in *.
  assert (G : forall k l1 l2 d, (length l1 < k)%nat -> l = l1 ++ d :: l2 -> cyc d -> False).
  { induction k as [|k IH]; intros l1 l2 d' Hk E C; [lia|]. destruct (Hc d' C) as [Nd [n [Cn Hn]]]. destruct (Hc n Cn) as [Nn _].
    assert (B : before n d' l) by (apply Hb; auto; rewrite E; apply in_or_app; right; now left).
    destruct B as [m1 [m2 [E2 I]]]. assert (Em : m1 = l1).
    { rewrite E in E2. clear -E E2 ND. rewrite E in ND. clear E. revert m1 E2. induction l1 as [|a l1 IH]; intros [|a' m1] E2; auto; cbn in *.
      - exfalso. injection E2 as -> E2. inversion ND. subst. apply H1. apply in_or_app. right. now left.
      - exfalso. injection E2 as -> E2. inversion ND. subst. apply H1. apply in_or_app. right. now left.
      - injection E2 as -> E2. f_equal. inversion ND. subst. apply IH; auto. }
    subst m1. apply in_split in I. destruct I as [a [c Ea]]. apply (IH a (c ++ d' :: l2) n); [|rewrite E, Ea, <- app_assoc; reflexivity|exact Cn].
    rewrite Ea, app_length in Hk. cbn in Hk. lia. }
  apply in_split in Hd. destruct Hd as [l1 [l2 E]]. eapply (G (S (length l1))); eauto.
Qed.

(* ------------------------------------------------------------------ *)
(** ** The graph of a list of features *)
(** Spec: columns read by a transform (required columns of its leaves and of the first
    step of a pipeline), output names of its direct operands. *)
Definition reads (t : trans) (r : string) : Prop :=
  (exists c, In (Leaf c) (nodes t) /\ In r (c_req c)) \/ (exists c rest, In (Compose c rest) (nodes t) /\ In r (c_req c)).
Inductive operand_name : trans -> string -> Prop :=
| on_binl l r op g : operand_name (Binary l r op g) (out_name l)
| on_binr l r op g : operand_name (Binary l r op g) (out_name r)
| on_minl l r op g : operand_name (MinMax l r op g) (out_name l)
| on_minr l r op g : operand_name (MinMax l r op g) (out_name r)
| on_const u c op g : operand_name (Const u c op g) (out_name u)
| on_unary u op g n : operand_name (Unary u op g n) (out_name u)
| on_compose f rest : operand_name (Compose f rest) (c_out f).
(** Feature d uses feature n. *)
Definition depends (fs : list feat) (n d : string) : Prop :=
  n <> d /\ In n (map f_name fs) /\
  exists f, In f fs /\ f_name f = d /\ (reads (f_t f) n \/ operand_name (f_t f) n).
(** The same graph with another iteration order of its sets. *)
Definition same_graph (g g' : graph) : Prop :=
  Permutation (g_nodes g) (g_nodes g') /\ forall n, Permutation (g_succ g n) (g_succ g' n).
(** A set of names in some iteration order. *)
Definition set_of (ns names : list string) : Prop := NoDup ns /\ forall n, In n ns <-> In n names.

Lemma flat_requires_iff t r : In r (flat_requires t) <-> reads t r.
Proof.
  unfold reads. induction t as [c|l IHl q IHq op g|l IHl q IHq op g|u IHu c op g|u IHu op g rn|f rest]; cbn [flat_requires nodes].
  - split; [intro H; left; exists c; split; [now left|auto]|]. intros [[d [[E|[]] H]]|[d [rest [[E|[]] _]]]]; [injection E as <-; auto|discriminate].
  - rewrite nodup_In, in_app_iff, IHl, IHq. split.
    + intros [[[c [I H]]|[c [z [I H]]]]|[[c [I H]]|[c [z [I H]]]]]; [left; exists c|right; exists c, z|left; exists c|right; exists c, z]; (split; [right; apply in_or_app; auto|auto]).
    + intros [[c [[E|I] H]]|[c [z [[E|I] H]]]]; try discriminate; apply in_app_or in I; destruct I as [I|I]; [left; left|right; left|left; right|right; right]; eauto.
  - rewrite nodup_In, in_app_iff, IHl, IHq. split.
    + intros [[[c [I H]]|[c [z [I H]]]]|[[c [I H]]|[c [z [I H]]]]]; [left; exists c|right; exists c, z|left; exists c|right; exists c, z]; (split; [right; apply in_or_app; auto|auto]).
    + intros [[c [[E|I] H]]|[c [z [[E|I] H]]]]; try discriminate; apply in_app_or in I; destruct I as [I|I]; [left; left|right; left|left; right|right; right]; eauto.
  - rewrite IHu. split; (intros [[d [I H]]|[d [z [I H]]]]; [left; exists d|right; exists d, z]); (split; [|auto]); try (now right); destruct I as [E|I]; [discriminate|auto|discriminate|auto].
  - rewrite IHu. split; (intros [[d [I H]]|[d [z [I H]]]]; [left; exists d|right; exists d, z]); (split; [|auto]); try (now right); destruct I as [E|I]; [discriminate|auto|discriminate|auto].
  - split; [intro H; right; exists f, rest; split; [now left|auto]|]. intros [[d [[E|[]] _]]|[d [z [[E|[]] H]]]]; [discriminate|injection E as <- <-; auto].
Qed.
Lemma child_out_iff t n : In n (child_out t) <-> operand_name t n.
Proof.
  split.
  - destruct t; cbn [child_out In]; intro H; repeat (destruct H as [<-|H]; [constructor|]); destruct H.
  - intros []; cbn; auto.
Qed.
Lemma sadd_In m n l : In m (sadd n l) <-> In m l \/ m = n.
Proof.
  unfold sadd. destruct (mem n l) eqn:E.
  - apply mem_iff in E. split; [auto|]. intros [H| ->]; auto.
  - rewrite in_app_iff. cbn. intuition.
Qed.
Lemma sadd_NoDup n l : NoDup l -> NoDup (sadd n l).
Proof.
  intro H. unfold sadd. destruct (mem n l) eqn:E; [auto|]. apply mem_false in E.
  apply (Permutation_NoDup (l := n :: l)); [apply Permutation_cons_append|]. constructor; auto.
Qed.
(** Strong form of well-formedness used while building. *)
Definition wf' (g : graph) : Prop :=
  NoDup (g_nodes g) /\ (forall n, NoDup (g_succ g n)) /\ (forall n d, In d (g_succ g n) -> In n (g_nodes g) /\ In d (g_nodes g)).
Lemma wf_node g n : wf' g -> wf' (add_node g n).
Proof.
  intros [A [B C]]. unfold add_node. split; [|split]; cbn [g_nodes g_succ]; [now apply sadd_NoDup|auto|].
  intros m d H. apply C in H. rewrite !sadd_In. tauto.
Qed.
Lemma wf_edge g a b : wf' g -> wf' (add_edge g a b).
Proof.
  intros [A [B C]]. unfold add_edge. split; [|split]; cbn [g_nodes g_succ]; [now repeat apply sadd_NoDup|..].
  - intro n. destruct (String.eqb n a); [now apply sadd_NoDup|auto].
  - intros m d H. rewrite !sadd_In. destruct (String.eqb_spec m a) as [->|].
    + apply sadd_In in H. destruct H as [H| ->]; [apply C in H; tauto|tauto].
    + apply C in H. tauto.
Qed.
Lemma succ_node g n m d : In d (g_succ (add_node g n) m) <-> In d (g_succ g m).
Proof. reflexivity. Qed.
Lemma succ_edge g a b m d : In d (g_succ (add_edge g a b) m) <-> In d (g_succ g m) \/ (m = a /\ d = b).
Proof.
  unfold add_edge. cbn [g_succ]. destruct (String.eqb_spec m a) as [->|N]; [rewrite sadd_In; tauto|]. tauto.
Qed.
(** A loop that adds edges to [out] from some of the names of a list. *)
Lemma edge_loop (step : graph -> string -> graph) (sel : string -> bool) (src : string -> string) out :
  (forall g r, wf' g -> wf' (step g r)) ->
  (forall g r m d, In d (g_succ (step g r) m) <-> In d (g_succ g m) \/ (sel r = true /\ m = src r /\ d = out)) ->
  (forall g r m, In m (g_nodes g) -> In m (g_nodes (step g r))) ->
  forall l g, (wf' g -> wf' (fold_left step l g)) /\ (forall m, In m (g_nodes g) -> In m (g_nodes (fold_left step l g))) /\
  (forall m d, In d (g_succ (fold_left step l g) m) <-> In d (g_succ g m) \/ (d = out /\ exists r, In r l /\ sel r = true /\ m = src r)).
Proof.
  intros A B C. induction l as [|r l IH]; intro g; cbn [fold_left].
  - split; [auto|]. split; [auto|]. intros m d. split; [auto|]. intros [H|[_ [r [[] _]]]]; auto.
  - destruct (IH (step g r)) as [I1 [I2 I3]]. split; [auto|]. split; [auto|]. intros m d. rewrite I3, B. split.
    + intros [[H|[H1 [H2 H3]]]|[H [r' [H1 H2]]]]; [auto|right; split; [auto|exists r; cbn; auto]|right; split; [auto|exists r'; cbn; tauto]].
    + intros [H|[H [r' [[->|H1] [H2 H3]]]]]; [auto|auto|right; split; [auto|eauto]].
Qed.
Lemma step1 out g r : wf' g -> wf' (add_edge (add_node g ("input:" ++ r)%string) ("input:" ++ r)%string out).
Proof. intro. now apply wf_edge, wf_node. Qed.
Lemma nodes_edge g a b m : In m (g_nodes g) -> In m (g_nodes (add_edge g a b)).
Proof. cbn. rewrite !sadd_In. auto. Qed.
Lemma feature_step outputs g f :
  (wf' g -> wf' (graph_feature outputs g f)) /\ (forall m, In m (g_nodes g) \/ m = f_name f -> In m (g_nodes (graph_feature outputs g f))) /\
  (forall m d, In d (g_succ (graph_feature outputs g f) m) <-> In d (g_succ g m) \/
    (d = f_name f /\ ((exists r, reads (f_t f) r /\ m = ("input:" ++ r)%string) \/
                      (m <> d /\ In m outputs /\ (reads (f_t f) m \/ operand_name (f_t f) m))))).
Proof.
  unfold graph_feature.
  set (g1 := add_node g (f_name f)).
  destruct (edge_loop (fun g r => add_edge (add_node g ("input:" ++ r)%string) ("input:" ++ r)%string (f_name f)) (fun _ => true) (fun r => ("input:" ++ r)%string) (f_name f)
    (step1 (f_name f))
    (fun g r m d => ltac:(rewrite succ_edge, succ_node; tauto))
    (fun g r m H => ltac:(apply nodes_edge; cbn; apply sadd_In; auto)) (flat_requires (f_t f)) g1) as [A1 [A2 A3]].
  set (g2 := fold_left _ (flat_requires (f_t f)) g1) in *.
  pose proof (edge_loop (fun g c => if (mem c outputs && negb (String.eqb c (f_name f)))%bool then add_edge g c (f_name f) else g)
    (fun c => (mem c outputs && negb (String.eqb c (f_name f)))%bool) (fun c => c) (f_name f)) as L2. cbv beta in L2.
  destruct (L2
    ltac:(intros g' c W; destruct (mem c outputs && negb (String.eqb c (f_name f)))%bool; [now apply wf_edge|auto])
    ltac:(intros g' c m d; destruct (mem c outputs && negb (String.eqb c (f_name f)))%bool; [rewrite succ_edge; tauto|intuition discriminate])
    ltac:(intros g' c m H; destruct (mem c outputs && negb (String.eqb c (f_name f)))%bool; [now apply nodes_edge|auto])
    (child_out (f_t f)) g2) as [B1 [B2 B3]]. clear L2.
  set (g3 := fold_left _ (child_out (f_t f)) g2) in *.
  pose proof (edge_loop (fun g o => if String.eqb o (f_name f) then g else if mem o (flat_requires (f_t f)) then add_edge g o (f_name f) else g)
    (fun o => (negb (String.eqb o (f_name f)) && mem o (flat_requires (f_t f)))%bool) (fun c => c) (f_name f)) as L3. cbv beta in L3.
  destruct (L3
    ltac:(intros g' c W; destruct (String.eqb c (f_name f)), (mem c (flat_requires (f_t f))); [auto|auto|now apply wf_edge|auto])
    ltac:(intros g' c m d; destruct (String.eqb c (f_name f)), (mem c (flat_requires (f_t f))); cbn [negb andb]; [intuition discriminate|intuition discriminate|rewrite succ_edge; tauto|intuition discriminate])
    ltac:(intros g' c m H; destruct (String.eqb c (f_name f)), (mem c (flat_requires (f_t f))); [auto|auto|now apply nodes_edge|auto])
    outputs g3) as [C1 [C2 C3]]. clear L3.
  split; [|split].
  - intro W. apply C1, B1, A1. now apply wf_node.
  - intros m H. apply C2, B2, A2. unfold g1. cbn. now apply sadd_In.
  - intros m d. rewrite C3, B3, A3. unfold g1. rewrite succ_node. split.
    + intros [[[H|[-> [r [H [_ ->]]]]]|[-> [r [H [E ->]]]]]|[-> [r [H [E ->]]]]].
      * auto.
      * right. split; [auto|]. left. exists r. split; [now apply flat_requires_iff|auto].
      * right. split; [auto|]. right. apply andb_prop in E. destruct E as [E1 E2]. apply mem_iff in E1. apply Bool.negb_true_iff, String.eqb_neq in E2.
        split; [auto|]. split; [auto|]. right. now apply child_out_iff.
      * right. split; [auto|]. right. apply andb_prop in E. destruct E as [E1 E2]. apply mem_iff in E2. apply Bool.negb_true_iff, String.eqb_neq in E1.
        split; [auto|]. split; [auto|]. left. now apply flat_requires_iff.
    + intros [H|[-> [[r [H ->]]|[N [I [H|H]]]]]]; [auto|..].
      * left. left. right. split; [auto|]. exists r. split; [now apply flat_requires_iff|auto].
      * right. split; [auto|]. exists m. apply flat_requires_iff in H. apply mem_iff in H. apply String.eqb_neq in N. rewrite N, H. auto.
      * left. right. split; [auto|]. exists m. apply child_out_iff in H. apply mem_iff in I. apply String.eqb_neq in N. rewrite N, I. auto.
Qed.
(** The graph is well-formed, has all features as nodes, and its edges are exactly the
    inputs and the dependencies. *)
Theorem C66_graph : forall fs,
  well_formed (feature_graph fs) /\ (forall f, In f fs -> In (f_name f) (g_nodes (feature_graph fs))) /\
  (forall n d, In d (g_succ (feature_graph fs) n) <->
     (exists f r, In f fs /\ f_name f = d /\ reads (f_t f) r /\ n = ("input:" ++ r)%string) \/ depends fs n d).
Proof.
  intro fs. unfold feature_graph. set (outputs := nodup string_dec (map f_name fs)).
  assert (G : forall l g, (wf' g -> wf' (fold_left (graph_feature outputs) l g)) /\
    (forall m, In m (g_nodes g) \/ In m (map f_name l) -> In m (g_nodes (fold_left (graph_feature outputs) l g))) /\
    (forall m d, In d (g_succ (fold_left (graph_feature outputs) l g) m) <-> In d (g_succ g m) \/
      exists f, In f l /\ d = f_name f /\ ((exists r, reads (f_t f) r /\ m = ("input:" ++ r)%string) \/
                      (m <> d /\ In m outputs /\ (reads (f_t f) m \/ operand_name (f_t f) m))))).
  { induction l as [|f l IH]; intro g; cbn [fold_left map In].
    - split; [auto|]. split; [intros m [H|[]]; auto|]. intros m d. split; [auto|]. intros [H|[f [[] _]]]; auto.
    - destruct (feature_step outputs g f) as [S1 [S2 S3]]. destruct (IH (graph_feature outputs g f)) as [I1 [I2 I3]].
      split; [auto|]. split.
      + intros m [H|[<-|H]]; apply I2; [left; apply S2; auto|left; apply S2; auto|auto].
      + intros m d. rewrite I3, S3. split.
        * intros [[H|H]|[f' [H1 H2]]]; [auto|right; exists f; auto|right; exists f'; auto].
        * intros [H|[f' [[->|H1] H2]]]; [auto|left; right; exact H2|right; exists f'; auto]. }
  destruct (G fs (mkGraph [] (fun _ => []))) as [G1 [G2 G3]].
  assert (W : wf' (mkGraph [] (fun _ => []))) by (split; [constructor|split; [intro; constructor|intros n d []]]).
  specialize (G1 W). destruct G1 as [W1 [W2 W3]]. split; [|split].
  - split; [auto|]. split; [auto|]. intros n d _ H. now apply W3 in H.
  - intros f H. apply G2. right. now apply in_map.
  - intros n d. rewrite G3. cbn [g_succ In]. unfold depends, outputs. split.
    + intros [[]|[f [H1 [-> [[r [H2 H3]]|[H2 [H3 H4]]]]]]]; [left; exists f, r; auto|right]. apply nodup_In in H3. split; [auto|]. split; [auto|]. exists f. auto.
    + intros [[f [r [H1 [<- [H2 H3]]]]]|[H1 [H2 [f [H3 [<- H4]]]]]]; right; exists f; split; auto; split; auto; [left; eauto|right].
      split; [auto|]. split; [now apply nodup_In|auto].
Qed.

(* ------------------------------------------------------------------ *)
(** ** C66: order of the features *)
(** Spec: no cycle among the features. *)
Definition acyclic_features (fs : list feat) : Prop :=
  exists rank : string -> nat, forall n d, depends fs n d -> (rank n < rank d)%nat.

Lemma name_graph_wf fs g ns : same_graph (feature_graph fs) g -> set_of ns (map f_name fs) -> well_formed (name_graph g ns).
Proof.
  intros [S1 S2] [N1 N2]. destruct (C66_graph fs) as [[W1 [W2 W3]] [G2 _]]. split; [auto|]. split; cbn [g_nodes g_succ name_graph].
  - intros n Hn. destruct (mem n ns); [|constructor]. apply NoDup_filter. eapply Permutation_NoDup; [apply S2|]. apply W2.
    apply N2, in_map_iff in Hn. destruct Hn as [f [<- Hf]]. auto.
  - intros n d Hn H. destruct (mem n ns); [|destruct H]. apply filter_In in H. now apply mem_iff.
Qed.
Lemma name_graph_succ fs g ns : same_graph (feature_graph fs) g -> set_of ns (map f_name fs) ->
  (forall f r, In f fs -> f_name f <> ("input:" ++ r)%string) ->
  forall n d, In n ns -> (In d (g_succ (name_graph g ns) n) <-> depends fs n d).
Proof.
  intros [S1 S2] [N1 N2] Hi n d Hn. destruct (C66_graph fs) as [_ [_ G3]]. cbn [g_succ name_graph].
  apply mem_iff in Hn as Hm. rewrite Hm, filter_In, mem_iff.
  assert (E : In d (g_succ g n) <-> In d (g_succ (feature_graph fs) n)) by (split; apply Permutation_in; [apply Permutation_sym|]; apply S2).
  rewrite E, G3. split.
  - intros [[[f [r [H1 [H2 [H3 H4]]]]]|H] Hd]; [|auto]. exfalso. apply N2, in_map_iff in Hn. destruct Hn as [f' [E' Hf']]. apply (Hi f' r Hf'). congruence.
  - intro H. split; [auto|]. destruct H as [_ [_ [f [Hf [<- _]]]]]. apply N2. now apply in_map.
Qed.
(** The execution order contains every feature once; without cycles every feature comes
    after the features it uses -- for every iteration order of the sets. *)
Theorem C66_order : forall fs g ns, NoDup (map f_name fs) -> same_graph (feature_graph fs) g -> set_of ns (map f_name fs) ->
  Permutation (topo_order g ns (map f_name fs)) (map f_name fs) /\
  ((forall f r, In f fs -> f_name f <> ("input:" ++ r)%string) -> acyclic_features fs ->
   forall n d, depends fs n d -> before n d (topo_order g ns (map f_name fs))).
Proof.
  intros fs g ns ND SG SN. pose proof (name_graph_wf fs g ns SG SN) as W. destruct (C66_topological_sort _ W) as [_ [T1 [T2 [T3 T4]]]].
  unfold topo_order. set (ord := fst (topo_sort (name_graph g ns))) in *. cbn [g_nodes name_graph] in T2, T3, T4. destruct SN as [N1 N2]. split.
  - apply NoDup_Permutation; [|auto|].
    + assert (Dis : forall d, In d (filter (fun n => negb (mem n ord)) (map f_name fs)) -> ~ In d ord).
      { intros d Hd. apply filter_In in Hd. destruct Hd as [_ Hd]. apply Bool.negb_true_iff in Hd. now apply mem_false. }
      assert (NDf : NoDup (filter (fun n => negb (mem n ord)) (map f_name fs))) by now apply NoDup_filter.
      clear -Dis NDf T1. set (F := filter _ _) in *. clearbody F. clearbody ord. induction ord as [|a o IH]; [exact NDf|]. cbn. inversion T1; subst. constructor.
      * intro K. apply in_app_or in K. destruct K as [K|K]; [contradiction|]. apply (Dis a K). now left.
      * apply IH; auto. intros d Hd K. apply (Dis d Hd). now right.
    + intro n. rewrite in_app_iff, filter_In. split.
      * intros [H|[H _]]; [apply N2; auto|auto].
      * intro H. destruct (mem n ord) eqn:E; [left; now apply mem_iff|right; auto].
  - intros Hi [rank Hr] n d Hd. assert (SN' : set_of ns (map f_name fs)) by (split; auto).
    pose proof (name_graph_succ fs g ns SG SN' Hi) as HS.
    assert (P : Permutation ord ns).
    { apply T4. exists rank. intros a c Ha Hc. cbn [g_nodes name_graph] in Ha. apply Hr. now apply HS. }
    destruct Hd as [Ne [In1 [f [Hf [Ef Hu]]]]]. assert (Dn : depends fs n d) by (split; [auto|split; [auto|exists f; auto]]).
    apply before_app. apply T3.
    + now apply N2.
    + apply HS; [now apply N2|auto].
    + apply (Permutation_in _ (Permutation_sym P)). apply N2. rewrite <- Ef. now apply in_map.
Qed.
(** Cyclic dependencies are not rejected: the original order is returned without error. *)
Theorem C66_cycle_rejected_refuted : exists fs g ns, NoDup (map f_name fs) /\ same_graph (feature_graph fs) g /\ set_of ns (map f_name fs) /\
  ~ acyclic_features fs /\ topo_order g ns (map f_name fs) = map f_name fs.
Proof.
  set (ca := mkCore false ["b"%string] "a" (fun _ l => Ok (hd [] l))). set (cb := mkCore false ["a"%string] "b" (fun _ l => Ok (hd [] l))).
  set (fs := [mkFeat "a" (Leaf ca); mkFeat "b" (Leaf cb)]).
  assert (D1 : depends fs "b" "a").
  { split; [discriminate|]. split; [cbn; auto|]. exists (mkFeat "a" (Leaf ca)). split; [cbn; auto|]. split; [reflexivity|].
    left. left. exists ca. cbn. auto. }
  assert (D2 : depends fs "a" "b").
  { split; [discriminate|]. split; [cbn; auto|]. exists (mkFeat "b" (Leaf cb)). split; [cbn; auto|]. split; [reflexivity|].
    left. left. exists cb. cbn. auto. }
  exists fs, (feature_graph fs), (map f_name fs).
  assert (ND : NoDup (map f_name fs)). { cbn. repeat constructor; cbn; intuition discriminate. }
  split; [exact ND|]. split; [split; auto|]. split; [split; [exact ND|tauto]|]. split.
  - intros [rank H]. apply H in D1. apply H in D2. lia.
  - vm_compute. reflexivity.
Qed.

(* ------------------------------------------------------------------ *)
(** ** C117: building in topological order succeeds *)
(** Spec: all leaf computations and pipeline steps of t return; later pipeline steps take
    one input. *)
Definition total_core (c : core) : Prop := forall b cols, length cols = length (c_req c) -> exists s, c_fun c b cols = Ok s.
Definition total_trans (t : trans) : Prop :=
  forall u, In u (nodes t) -> match u with
    | Leaf c => total_core c
    | Compose f rest => total_core f /\ c_req f <> [] /\ forall c, In c rest -> total_core c /\ length (c_req c) = 1%nat
    | _ => True
    end.
Lemma core_total b x c : total_core c -> (forall r, In r (c_req c) -> get x r <> None) -> exists s, core_call b x c = Ok s.
Proof.
  intros T H. unfold core_call.
  assert (G : forall l, (forall r, In r l -> get x r <> None) ->
    exists cols, collect (map (fun n => match get x n with Some s => Ok s | None => Raise ValueError end) l) = Ok cols /\ length cols = length l).
  { induction l as [|r l IH]; intro K; [exists []; auto|]. destruct IH as [cols [E L]]; [intros; apply K; now right|].
    cbn [map]. destruct (get x r) as [s|] eqn:Er; [|exfalso; apply (K r); [now left|auto]]. exists (s :: cols). cbn [collect]. rewrite E. cbn. auto. }
  destruct (G (c_req c) H) as [cols [E L]]. rewrite E. now apply T.
Qed.
Lemma step_total b x cur c : total_core c -> length (c_req c) = 1%nat -> exists s, compose_step b x (Some cur) c = Ok s.
Proof.
  intros T L. unfold compose_step. destruct (get x (c_prod c)) as [s|]; [eauto|]. cbv zeta.
  destruct (c_req c) as [|r [|]] eqn:E; cbn in L; try lia. cbn [hd].
  assert (A : forall v, exists s, core_call b [(r, v)] c = Ok s).
  { intro v. apply core_total; [auto|]. rewrite E. intros q [<-|[]]. cbn. rewrite String.eqb_refl. discriminate. }
  destruct (get x r); apply A.
Qed.
Lemma call_total b x t : total_trans t -> (forall r, reads t r -> get x r <> None) -> exists s, call b x t = Ok s.
Proof.
  induction t as [c|l IHl q IHq op g|l IHl q IHq op g|u IHu c op g|u IHu op g rn|f rest]; intros T H.
  - cbn [call]. apply core_total; [apply (T (Leaf c)); now left|]. intros r Hr. apply H. left. exists c. cbn. auto.
  - destruct IHl as [a Ea]; [intros w Hw; apply T; right; apply in_or_app; auto|intros r Hr; apply H; apply flat_requires_iff in Hr; apply flat_requires_iff; cbn; apply nodup_In, in_or_app; auto|].
    destruct IHq as [v Ev]; [intros w Hw; apply T; right; apply in_or_app; auto|intros r Hr; apply H; apply flat_requires_iff in Hr; apply flat_requires_iff; cbn; apply nodup_In, in_or_app; auto|].
    cbn [call]. destruct (get x (out_name (Binary l q op g))); [eauto|]. destruct (get x (out_name l)), (get x (out_name q)); rewrite ?Ea, ?Ev; eauto.
  - destruct IHl as [a Ea]; [intros w Hw; apply T; right; apply in_or_app; auto|intros r Hr; apply H; apply flat_requires_iff in Hr; apply flat_requires_iff; cbn; apply nodup_In, in_or_app; auto|].
    destruct IHq as [v Ev]; [intros w Hw; apply T; right; apply in_or_app; auto|intros r Hr; apply H; apply flat_requires_iff in Hr; apply flat_requires_iff; cbn; apply nodup_In, in_or_app; auto|].
    cbn [call]. destruct (get x (out_name (MinMax l q op g))); [eauto|]. destruct (get x (out_name l)), (get x (out_name q)); rewrite ?Ea, ?Ev; eauto.
  - destruct IHu as [a Ea]; [intros w Hw; apply T; now right|intros r Hr; apply H; apply flat_requires_iff in Hr; apply flat_requires_iff; exact Hr|].
    cbn [call]. destruct (get x (out_name (Const u c op g))); [eauto|]. destruct (get x (out_name u)); rewrite ?Ea; eauto.
  - destruct IHu as [a Ea]; [intros w Hw; apply T; now right|intros r Hr; apply H; apply flat_requires_iff in Hr; apply flat_requires_iff; exact Hr|].
    cbn [call]. destruct (get x (out_name (Unary u op g rn))); [eauto|]. destruct (get x (out_name u)); rewrite ?Ea; eauto.
  - cbn [call]. unfold compose_call. destruct (T (Compose f rest) (or_introl eq_refl)) as [T1 [T2 T3]].
    assert (R : forall r, In r (c_req f) -> get x r <> None) by (intros r Hr; apply H; right; exists f, rest; cbn; auto).
    destruct (get x (hd EmptyString (c_req f))) eqn:E0; [|exfalso; apply (R (hd EmptyString (c_req f))); [destruct (c_req f); [congruence|now left]|auto]].
    destruct (get x (out_name (Compose f rest))); [eauto|].
    assert (F : exists s, compose_step b x None f = Ok s). { unfold compose_step. destruct (get x (c_prod f)); [eauto|]. now apply core_total. }
    destruct F as [s0 ->]. clear -T3. revert s0. induction rest as [|c rest IH]; intro s0; cbn [compose_loop]; [eauto|].
    destruct (T3 c (or_introl eq_refl)) as [A B]. destruct (step_total b x s0 c A B) as [s1 ->]. apply IH. intros d Hd. apply T3. now right.
Qed.
Lemma name2feat_some fs f : NoDup (map f_name fs) -> In f fs -> name2feat fs (f_name f) = Some f.
Proof.
  intros ND Hf. unfold name2feat. destruct (find (fun g => String.eqb (f_name g) (f_name f)) (rev fs)) as [g|] eqn:E.
  - apply find_some in E. destruct E as [I E]. apply String.eqb_eq in E. apply in_rev in I. f_equal.
    clear -ND Hf I E. induction fs as [|a fs IH]; [destruct Hf|]. cbn in ND. inversion ND as [|? ? N1 N2]; subst.
    destruct Hf as [<-|Hf], I as [<-|I]; auto; exfalso; apply N1; [rewrite <- E|rewrite E]; now apply in_map.
  - exfalso. apply in_rev in Hf. apply (find_none _ _ E) in Hf. now rewrite String.eqb_refl in Hf.
Qed.
Lemma topo_feats_names fs g ns : NoDup (map f_name fs) -> same_graph (feature_graph fs) g -> set_of ns (map f_name fs) ->
  map f_name (topo_feats g ns fs) = topo_order g ns (map f_name fs) /\ (forall f, In f (topo_feats g ns fs) -> In f fs).
Proof.
  intros ND SG SN. destruct (C66_order fs g ns ND SG SN) as [P _]. unfold topo_feats. cbv zeta. set (o := topo_order g ns (map f_name fs)) in *.
  assert (E : filter (fun f => negb (mem (f_name f) o)) fs = []).
  { assert (K : forall f, In f fs -> mem (f_name f) o = true) by (intros f Hf; apply mem_iff; apply (Permutation_in _ (Permutation_sym P)); now apply in_map).
    clear -K. clearbody o. induction fs as [|f fs IH]; [reflexivity|]. cbn [filter]. rewrite K by now left. cbn [negb]. apply IH. intros; apply K; now right. }
  rewrite E, app_nil_r.
  assert (K : forall n, In n o -> exists f, In f fs /\ f_name f = n /\ name2feat fs n = Some f).
  { intros n Hn. apply (Permutation_in _ P) in Hn. apply in_map_iff in Hn. destruct Hn as [f [<- Hf]]. exists f. split; [auto|]. split; [auto|]. now apply name2feat_some. }
  clear E P. clearbody o. induction o as [|n o IH]; [split; [reflexivity|intros f []]|].
  destruct (K n (or_introl eq_refl)) as [f [Hf [En Ef]]]. cbn [flat_map]. rewrite Ef. cbn [app map].
  destruct IH as [I1 I2]; [intros; apply K; now right|]. split; [rewrite I1, En; reflexivity|]. intros f' [<-|H]; auto.
Qed.
(** If names are unique and are the output names, every column a feature reads is a raw
    column or another feature, and there is no cycle, the build in topological order
    returns all features. *)
Theorem C117_topo_build : forall b retain df fs g ns,
  NoDup (map f_name fs) -> same_graph (feature_graph fs) g -> set_of ns (map f_name fs) ->
  (forall f, In f fs -> f_name f = out_name (f_t f) /\ total_trans (f_t f) /\ forall r, f_name f <> ("input:" ++ r)%string) ->
  (forall f r, In f fs -> reads (f_t f) r -> get df r <> None \/ (r <> f_name f /\ In r (map f_name fs))) ->
  acyclic_features fs -> (forall n, In n retain -> get df n <> None) ->
  exists r, kit_build_topo b retain df g ns fs = Ok r /\ forall n, In n (map f_name fs) -> get r n <> None.
Proof.
  intros b retain df fs g ns ND SG SN Hf Hr Ac Hret. destruct (C66_order fs g ns ND SG SN) as [P O].
  specialize (O (fun f r H => proj2 (proj2 (Hf f H)) r) Ac). destruct (topo_feats_names fs g ns ND SG SN) as [E I].
  unfold kit_build_topo, kit_build. destruct (retained_ok df retain Hret) as [out0 ->].
  rewrite <- E in P, O. set (l := topo_feats g ns fs) in *.
  assert (NDl : NoDup (map f_name l)) by (eapply Permutation_NoDup; [apply Permutation_sym; exact P|auto]).
  assert (G : forall suf pre out x, l = pre ++ suf -> (forall n, get df n <> None \/ In n (map f_name pre) -> get x n <> None) ->
    (forall n, In n (map f_name pre) -> get out n <> None) ->
    exists r, build_loop b out x suf = Ok r /\ forall n, In n (map f_name l) -> get r n <> None).
  { induction suf as [|f suf IH]; intros pre out x El Hx Ho; cbn [build_loop].
    - exists out. split; [auto|]. rewrite El, app_nil_r. auto.
    - assert (Hin : In f fs) by (apply I; rewrite El; apply in_or_app; right; now left).
      destruct (Hf f Hin) as [F1 [F2 F3]].
      assert (C : exists s, feat_call b x f = Ok s).
      { unfold feat_call. destruct (get x (out_name (f_t f))); [eauto|]. apply call_total; [auto|]. intros r Rr.
        apply Hx. destruct (Hr f r Hin Rr) as [H|[H1 H2]]; [auto|right].
        assert (B : before r (f_name f) (map f_name l)) by (apply O; split; [auto|split; [auto|exists f; auto]]).
        destruct B as [l1 [l2 [E1 I1]]]. rewrite El, map_app in E1. cbn [map] in E1.
        assert (Em : map f_name pre = l1).
        { rewrite El, map_app in NDl. cbn [map] in NDl. clear -E1 NDl. revert l1 E1. induction (map f_name pre) as [|a m IH]; intros [|a' l1] E1; auto; cbn in *.
          - exfalso. injection E1 as E0 E1. inversion NDl; subst. apply H1. rewrite E1. apply in_or_app. right. now left.
          - exfalso. injection E1 as E0 E1. inversion NDl; subst. apply H1. apply in_or_app. right. now left.
          - injection E1 as -> E1. f_equal. inversion NDl; subst. apply IH; auto. }
        now rewrite Em. }
      destruct C as [s Es]. rewrite Es. apply (IH (pre ++ [f])); [rewrite El, <- app_assoc; reflexivity|..].
      + intros n Hn. rewrite get_put. destruct (String.eqb_spec (out_name (f_t f)) n); [discriminate|]. apply Hx.
        destruct Hn as [Hn|Hn]; [auto|right]. rewrite map_app in Hn. apply in_app_or in Hn. destruct Hn as [Hn|[Hn|[]]]; [auto|]. congruence.
      + intros n Hn. rewrite get_put. destruct (String.eqb_spec (f_name f) n); [discriminate|]. apply Ho.
        rewrite map_app in Hn. apply in_app_or in Hn. destruct Hn as [Hn|[Hn|[]]]; [auto|]. contradiction. }
  destruct (G l [] out0 df eq_refl) as [r [Er Hn]]; [intros n [H|[]]; auto|intros n []|]. exists r. split; [auto|].
  intros n H. apply Hn. apply (Permutation_in _ (Permutation_sym P)). auto.
Qed.

(** Three features given in the wrong order: c uses b, b uses a, a reads a raw column. *)
Definition ex_core (r p : string) : core :=
  mkCore false [r] p (fun _ cols => match cols with [s] => Ok (map (fun v => eadd v (Fin 1)) s) | _ => Ok [] end).
Definition ex_feats : list feat :=
  [mkFeat "c" (Leaf (ex_core "b" "c")); mkFeat "abs(b)" (Unary (Leaf (ex_core "a" "b")) "abs" (map eabs) None);
   mkFeat "b" (Leaf (ex_core "a" "b")); mkFeat "a" (Leaf (ex_core "close" "a"))].
Definition ex_df : frame := [("close"%string, [Fin 1; NaN; Fin (-5)])].
Lemma ex_reads c n : reads (Leaf c) n <-> In n (c_req c).
Proof. rewrite <- flat_requires_iff. reflexivity. Qed.
(** The defined order raises ValueError, the topological order builds every feature. *)
Example C117_example :
  (exists rank : string -> nat, forall n d, depends ex_feats n d -> (rank n < rank d)%nat) /\
  kit_build NB [] ex_df ex_feats = Raise ValueError /\
  topo_order (feature_graph ex_feats) (map f_name ex_feats) (map f_name ex_feats) = ["a"; "b"; "c"; "abs(b)"]%string /\
  kit_build_topo NB [] ex_df (feature_graph ex_feats) (map f_name ex_feats) ex_feats =
    Ok [("a", [Fin 2; NaN; Fin (-4)]); ("b", [Fin 3; NaN; Fin (-3)]); ("c", [Fin 4; NaN; Fin (-2)]); ("abs(b)", [Fin 3; NaN; Fin 3])]%string.
Proof.
  split; [|vm_compute; auto].
  exists (fun n => if String.eqb n "a" then 0%nat else if String.eqb n "b" then 1%nat else 2%nat).
  intros n d [N [Hn [f [Hf [<- H]]]]]. cbn in Hf, Hn. destruct Hf as [<-|[<-|[<-|[<-|[]]]]]; cbn [f_name f_t] in *;
    (destruct H as [H|H]; [apply flat_requires_iff in H; cbn in H; destruct H as [<-|[]]|apply child_out_iff in H; cbn in H; try destruct H as [<-|[]]; try destruct H]); cbn; try lia; intuition discriminate.
Qed.
(** The defined order fails although the dependencies are acyclic. *)
Theorem C117_defined_refuted : exists b df fs, NoDup (map f_name fs) /\ acyclic_features fs /\
  (exists r, kit_build_topo b [] df (feature_graph fs) (map f_name fs) fs = Ok r) /\ kit_build b [] df fs = Raise ValueError.
Proof.
  exists NB, ex_df, ex_feats. destruct C117_example as [A [B [_ D]]]. split; [|split; [exact A|split; [eauto|exact B]]].
  cbn. repeat constructor; cbn; intuition discriminate.
Qed.
(** A feature renamed by the user is found by the graph under its new name, but cached
    under the output name of its transform: its dependents raise ValueError. *)
Theorem C117_renamed_refuted : exists b df fs, NoDup (map f_name fs) /\ acyclic_features fs /\
  (forall f r, In f fs -> reads (f_t f) r -> get df r <> None \/ (r <> f_name f /\ In r (map f_name fs))) /\
  (forall f, In f fs -> total_trans (f_t f)) /\
  before "mine" "b" (topo_order (feature_graph fs) (map f_name fs) (map f_name fs)) /\
  kit_build_topo b [] df (feature_graph fs) (map f_name fs) fs = Raise ValueError.
Proof.
  exists NB, ex_df, [mkFeat "b" (Leaf (ex_core "mine" "b")); mkFeat "mine" (Leaf (ex_core "close" "a"))].
  split; [cbn; repeat constructor; cbn; intuition discriminate|]. split.
  { exists (fun n => if String.eqb n "mine" then 0%nat else 1%nat).
    intros n d [N [Hn [f [Hf [<- H]]]]]. cbn in Hf, Hn. destruct Hf as [<-|[<-|[]]]; cbn [f_name f_t] in *;
    (destruct H as [H|H]; [apply flat_requires_iff in H; cbn in H; destruct H as [<-|[]]|apply child_out_iff in H; cbn in H; destruct H]); cbn; try lia; intuition discriminate. }
  split. { intros f r [<-|[<-|[]]] H; apply flat_requires_iff in H; cbn in H; destruct H as [<-|[]]; [right; split; [discriminate|cbn; auto]|left; discriminate]. }
  split. { intros f [<-|[<-|[]]] u Hu; cbn in Hu; destruct Hu as [<-|[]]; intros b cols L; destruct cols as [|s [|]]; cbn in *; eauto. }
  split; [exists ["mine"%string], []; split; [vm_compute; reflexivity|now left]|]. vm_compute. reflexivity.
Qed.
(** The full graph of the example, sorted; and a graph with a cycle x <-> y behind a root. *)
Example C66_example :
  well_formed (feature_graph ex_feats) /\
  fst (topo_sort (feature_graph ex_feats)) = ["input:b"; "input:a"; "input:close"; "a"; "b"; "c"; "abs(b)"]%string /\
  let g := add_edge (add_edge (add_edge (mkGraph [] (fun _ => [])) "r" "x") "x" "y") "y" "x" in
  topo_sort g = (["r"]%string, []) /\ forall d, d = "x"%string \/ d = "y"%string -> ~ In d (fst (topo_sort g)).
Proof.
  split; [apply C66_graph|]. split; [vm_compute; reflexivity|]. cbv zeta. split; [vm_compute; reflexivity|].
  apply C66_cycle_dropped.
  - split; [|split]; cbn.
    + repeat constructor; cbn; intuition discriminate.
    + intros n _. destruct (String.eqb n "y"), (String.eqb n "x"), (String.eqb n "r"); repeat constructor; cbn; intuition discriminate.
    + intros n d [<-|[<-|[<-|[]]]] H; cbn in H; destruct H as [<-|[]]; auto.
  - intros d [->| ->]; cbn; split; auto; [exists "y"%string|exists "x"%string]; cbn; auto.
Qed.

Print Assumptions C66_topological_sort.
Print Assumptions C66_cycle_dropped.
Print Assumptions C66_graph.
Print Assumptions C66_order.
Print Assumptions C66_cycle_rejected_refuted.
Print Assumptions C117_topo_build.
Print Assumptions C117_defined_refuted.
Print Assumptions C117_renamed_refuted.
