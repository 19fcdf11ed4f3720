(** * Property theorems C170: the functions of graph.cpp that nothing calls, and
    the int index of add_data_column.

    [labels a] are the nodes of [a] with the visited flags reset. *)
From Coq Require Import List Arith ZArith Bool Reals Lia Lra.
From Verif Require Import PyBase Cost SpecPath GraphCommon CppGraph CppGraphProofs CppSearch CppHeap CppMain CppExamples CppUnused CppUnusedProofs.
Import ListNotations.
Local Open Scope nat_scope.

(** multi_source_bfs leaves the distances and parents of calling visit on the
    first column and then on what init_unvisited lists, in that order. *)
Theorem C170_bfs_is_visits :
  forall (K : CostStruct) (F : Type) (sq_acc : K -> F -> F -> F -> K) n (w : list F) (data : list (list (list F))),
  length w = n -> uniform n data -> data <> [] -> Forall (fun col => col <> []) data ->
  exists a b, multi_source_bfs sq_acc w (fresh data) = Ok a /\
    foldM (visit sq_acc w) (col_refs (fresh data : narr K (list F)) 0 ++ init_unvisited (fresh data : narr K (list F)))
      (start_column (fresh data) 0) = Ok b /\
    labels b = labels a.
Proof. exact @bfs_visits. Qed.
Print Assumptions C170_bfs_is_visits.

(** multi_source_dijkstra: the visits of distinct nodes in some order, whatever
    the priority queue. *)
Theorem C170_dijkstra_is_visits :
  forall (K : CostStruct) (F : Type) (sq_acc : K -> F -> F -> F -> K) n (w : list F) (data : list (list (list F))),
  length w = n -> uniform n data -> data <> [] ->
  forall (pq : pqueue K F) mx g, pq_ok pq ->
  exists a g' order b, multi_source_dijkstra sq_acc pq w mx g (fresh data) = Ok (a, g') /\
    NoDup order /\ (forall r, In r order -> exists v, deref (fresh data : narr K (list F)) r = Ok v) /\
    foldM (visit sq_acc w) order (start_column (fresh data) 0) = Ok b /\
    labels b = labels a.
Proof. exact @dij_visits. Qed.
Print Assumptions C170_dijkstra_is_visits.

(** init_unvisited lists every node of every column but the first, once. *)
Theorem C170_unvisited :
  forall (K : CostStruct) (F : Type) (a : narr K (list F)),
  NoDup (init_unvisited a) /\
  forall r, In r (init_unvisited a) <-> 1 <= fst r /\ exists v, deref a r = Ok v.
Proof. exact @unvisited_spec. Qed.
Print Assumptions C170_unvisited.

(** sort_function is a strict weak order: it can be given to std::sort. *)
Theorem C170_sort_function :
  forall (K : CostStruct) (F : Type) (x y z : node K (list F)),
  sort_function x x = false /\
  (sort_function x y = true -> sort_function y z = true -> sort_function x z = true) /\
  (sort_function x y = false -> sort_function y z = false -> sort_function x z = false).
Proof. exact @sort_order. Qed.
Print Assumptions C170_sort_function.

(** set_graph_data gives the graph that adding the columns one by one gives. *)
Theorem C170_set_graph_data :
  forall (K : CostStruct) (F : Type) n (data : list (list (list F))), uniform n data ->
  foldM (fun s rows => add_data_column (concat rows) (length rows) n s) data cnew = Ok (set_graph_data (K := K) data cnew).
Proof. exact @set_data_columns. Qed.
Print Assumptions C170_set_graph_data.

(** add_data_column with the index computed in a 32-bit int: as with unbounded
    integers up to 2^31 entries, undefined behaviour for every larger matrix. *)
Theorem C170_index_fits :
  forall (K : CostStruct) (F : Type) (mat : list F) nrows ncols (s : cgraph K F),
  (Z.of_nat nrows * Z.of_nat ncols <= 2 ^ 31)%Z ->
  add_data_column32 mat nrows ncols s = add_data_column mat nrows ncols s.
Proof. exact @add_small. Qed.
Print Assumptions C170_index_fits.

Theorem C170_index_overflows :
  forall (K : CostStruct) (F : Type) (mat : list F) nrows ncols (s : cgraph K F),
  (2 ^ 31 < Z.of_nat nrows * Z.of_nat ncols)%Z ->
  add_data_column32 mat nrows ncols s = Raise OutOfBounds.
Proof. exact @add_large. Qed.
Print Assumptions C170_index_overflows.

(** cost_function is a distance on joint vectors for positive weights ... *)
Theorem C170_cost_function_metric :
  forall w, exists d : list R -> list R -> R,
  (forall a b, length a = length w -> length b = length w -> cost1 w a b = Ok (d a b)) /\
  (Forall (fun u => 0 <= u)%R w -> forall a b c, length a = length w -> length b = length w -> length c = length w ->
     (0 <= d a b)%R /\ d a b = d b a /\ d a a = 0%R /\ (d a c <= d a b + d b c)%R) /\
  (Forall (fun u => 0 < u)%R w -> forall a b, length a = length w -> length b = length w -> d a b = 0%R -> a = b).
Proof. exact cost1_metric. Qed.
Print Assumptions C170_cost_function_metric.

(** ... the squared cost that the searches use is not: a detour can be cheaper. *)
Theorem C170_cost_function_2_triangle_refuted :
  exists a b c x y z, cost2 (K := RCost) rsq [1%R] a b = Ok (Some x) /\ cost2 (K := RCost) rsq [1%R] b c = Ok (Some y) /\
    cost2 (K := RCost) rsq [1%R] a c = Ok (Some z) /\ (x + y < z)%R.
Proof. exact cost2_detour. Qed.
Print Assumptions C170_cost_function_2_triangle_refuted.

Example C170_example_visits :
  length [1%Z] = 1 /\ uniform 1 [[[0]; [5]]; [[4]; [9]; [2]]]%Z /\
  init_unvisited (fresh [[[0]; [5]]; [[4]; [9]; [2]]]%Z : narr ZCost (list Z)) = [(1, 0); (1, 1); (1, 2)] /\
  (exists b, foldM (visit (K := ZCost) zsq [1%Z]) [(0, 0); (0, 1); (1, 0); (1, 1); (1, 2)] (start_column (fresh [[[0]; [5]]; [[4]; [9]; [2]]]%Z) 0) = Ok b /\
     map (map (fun v => (n_dist v, n_parent v))) b =
       [[(Some 0, PDummy); (Some 0, PDummy)]; [(Some 1, PNode 0 1); (Some 16, PNode 0 1); (Some 4, PNode 0 0)]]%Z).
Proof. split; [reflexivity|]. split; [repeat constructor|]. split; [reflexivity|]. eexists. split; reflexivity. Qed.
(** ... and it reads outside a shorter weight or second vector. *)
Theorem C170_l1_outside : forall w a b, (length w < length a \/ length b < length a)%nat -> cost1 w a b = Raise OutOfBounds.
Proof. exact cost1_outside. Qed.
Print Assumptions C170_l1_outside.
Example C170_example_l1 : cost1 [2; 1]%R [0; 3]%R [1; 1]%R = Ok 4%R.
Proof. unfold cost1, cost1_loop. f_equal. unfold Rminus. rewrite (Rabs_left (0 + -(1))), (Rabs_right (3 + -(1))) by lra. lra. Qed.
Example C170_example_index : index32 6 357913941 1 = Ok 2147483647%Z /\ index32 6 357913941 2 = Raise OutOfBounds.
Proof. split; reflexivity. Qed.
