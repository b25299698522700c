(** M_graph.v -- dependency graph of features and execution order (feature/utils.py
    L308-397, feature/kit.py L982-1041). Features with a single output (string names). *)
From Coq Require Import String.
From Verif Require Import Base M_features M_kit.
Open Scope Z_scope.

(** utils.py L308-313: [nodes] is a set, [edges] a dict of sets whose keys are the nodes
    (add_node and add_edge enter every node). The lists give the iteration order of the
    sets, which Python does not fix; the theorems hold for every order. *)
Record graph := mkGraph { g_nodes : list string; g_succ : string -> list string }.

(** Membership in a Python set or list of strings (utils.py L389, L395). *)
Definition mem (n : string) (l : list string) : bool := existsb (String.eqb n) l.
(** [set.add] (utils.py L315-316, L320). *)
Definition sadd (n : string) (l : list string) : list string := if mem n l then l else l ++ [n].

(** utils.py L319-321 [add_node]. *)
Definition add_node (g : graph) (n : string) : graph := mkGraph (sadd n (g_nodes g)) (g_succ g).
(** utils.py L314-317 [add_edge]. *)
Definition add_edge (g : graph) (src dst : string) : graph :=
  mkGraph (sadd dst (sadd src (g_nodes g)))
          (fun n => if String.eqb n src then sadd dst (g_succ g src) else g_succ g n).

(** utils.py L325-328: number of nodes with an edge to d. *)
Definition indegree (g : graph) (d : string) : Z :=
  Z.of_nat (length (filter (fun n => mem d (g_succ g n)) (g_nodes g))).

(** utils.py L334-337: after n is taken, its successors lose one; those at 0 are queued. *)
Definition relax (st : (string -> Z) * list string) (d : string) : (string -> Z) * list string :=
  let '(deg, zero) := st in
  let deg' := fun m => if String.eqb m d then deg d - 1 else deg m in
  (deg', if deg' d =? 0 then zero ++ [d] else zero).
(** utils.py L330-337: the loop; returns the order and what is left in the queue when the
    fuel is used up. *)
Fixpoint kahn (g : graph) (fuel : nat) (deg : string -> Z) (zero order : list string) : list string * list string :=
  match fuel with
  | O => (order, zero)
  | S f => match zero with
           | [] => (order, zero)
           | n :: z => let '(deg', z') := fold_left relax (g_succ g n) (deg, z) in kahn g f deg' z' (order ++ [n])
           end
  end.
(** utils.py L323-338 [topological_sort]. *)
Definition topo_sort (g : graph) : list string * list string :=
  kahn g (length (g_nodes g)) (indegree g) (filter (fun n => indegree g n =? 0) (g_nodes g)) [].

(** utils.py L348-356 [_flatten_requires]; [list(set(...))] for two operands. *)
Fixpoint flat_requires (t : trans) : list string :=
  match t with
  | Leaf c => c_req c
  | Binary l r _ _ | MinMax l r _ _ => nodup string_dec (flat_requires l ++ flat_requires r)
  | Const u _ _ _ | Unary u _ _ _ => flat_requires u
  | Compose f _ => c_req f
  end.
(** utils.py L364-376 [_child_out_names]. *)
Definition child_out (t : trans) : list string :=
  match t with
  | Leaf _ => []
  | Binary l r _ _ | MinMax l r _ _ => [out_name l; out_name r]
  | Const u _ _ _ | Unary u _ _ _ => [out_name u]
  | Compose f _ => [c_out f]
  end.
(** utils.py L378-396: nodes and edges of one feature; [outputs] are all feature names. *)
Definition graph_feature (outputs : list string) (g : graph) (f : feat) : graph :=
  let out := f_name f in
  let reqs := flat_requires (f_t f) in
  let g := add_node g out in
  let g := fold_left (fun g r => add_edge (add_node g ("input:" ++ r)%string) ("input:" ++ r)%string out) reqs g in
  let g := fold_left (fun g c => if (mem c outputs && negb (String.eqb c out))%bool then add_edge g c out else g) (child_out (f_t f)) g in
  fold_left (fun g o => if String.eqb o out then g else if mem o reqs then add_edge g o out else g) outputs g.
(** utils.py L359-397 [build_feature_graph]. *)
Definition feature_graph (fs : list feat) : graph :=
  fold_left (graph_feature (nodup string_dec (map f_name fs))) fs (mkGraph [] (fun _ => [])).

(** kit.py L985-1000: the graph restricted to feature names; [ns] is the set of the names
    in any iteration order. *)
Definition name_graph (g : graph) (ns : list string) : graph :=
  mkGraph ns (fun n => if mem n ns then filter (fun d => mem d ns) (g_succ g n) else []).
(** kit.py L1001-1012: Kahn's order, then the names that are not in it. *)
Definition topo_order (g : graph) (ns names : list string) : list string :=
  let order := fst (topo_sort (name_graph g ns)) in
  order ++ filter (fun n => negb (mem n order)) names.

(** kit.py L1036: [name2feat] keeps the last feature of a name. *)
Definition name2feat (fs : list feat) (n : string) : option feat :=
  find (fun f => String.eqb (f_name f) n) (rev fs).
(** kit.py L1035-1041. *)
Definition topo_feats (g : graph) (ns : list string) (fs : list feat) : list feat :=
  let order := topo_order g ns (map f_name fs) in
  flat_map (fun n => match name2feat fs n with Some f => [f] | None => [] end) order
  ++ filter (fun f => negb (mem (f_name f) order)) fs.
(** kit.py L1014-1066 [FeatureKit.build], order = "topo". *)
Definition kit_build_topo (b : backend) (retain : list string) (df : frame) (g : graph) (ns : list string) (fs : list feat) : result frame :=
  kit_build b retain df (topo_feats g ns fs).
