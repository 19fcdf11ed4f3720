(** * Property theorems C15-C24 and C107: the C++ graph search (acrobotics/cpp).

    [load f1 n data ow] is the call sequence of planning.py (one
    add_data_column per column, optional set_weights, init); [jcost sq_acc w]
    is the weighted squared difference accumulated over the joints. *)
From Coq Require Import List Arith Lia Bool ZArith Reals Lra.
From Verif Require Import PyBase Cost SpecPath GraphCommon CppGraph CppGraphProofs CppSearch CppHeap CppHeapOrder CppMain CppExamples CppFinal.
Import ListNotations.
Local Open Scope nat_scope.

(** C15: the rows found by run_bfs are optimal. *)
Theorem C15_cpp_bfs_optimal :
  forall (K : CostStruct) (F : Type) (f1 : F) (sq_acc : K -> F -> F -> F -> K) n data ow (s : cgraph K F),
  uniform n data -> load f1 n data ow = Ok s ->
  forall s', run_bfs sq_acc s = Ok s' ->
  exists js p, get_path (length data) s' = Ok (Some (map Z.of_nat js)) /\ picks data js p /\
    forall js' p', picks data js' p' ->
      cle (walk_cost (jcost sq_acc (eff_weights f1 n ow)) p) (walk_cost (jcost sq_acc (eff_weights f1 n ow)) p').
Proof. exact cpp_bfs_optimal. Qed.
Print Assumptions C15_cpp_bfs_optimal.

(** C15: run_bfs returns iff some path has a finite cost; otherwise it
    dereferences a null pointer. *)
Theorem C15_cpp_bfs_returns_iff_finite_path :
  forall (K : CostStruct) (F : Type) (f1 : F) (sq_acc : K -> F -> F -> F -> K) n data ow (s : cgraph K F),
  uniform n data -> load f1 n data ow = Ok s ->
  (exists s', run_bfs sq_acc s = Ok s') /\
    (exists js p, picks data js p /\ clt (walk_cost (jcost sq_acc (eff_weights f1 n ow)) p) cinf = true) \/
  run_bfs sq_acc s = Raise NullDeref /\
    (forall js p, picks data js p -> clt (walk_cost (jcost sq_acc (eff_weights f1 n ow)) p) cinf = false).
Proof. exact cpp_bfs_crash. Qed.
Print Assumptions C15_cpp_bfs_returns_iff_finite_path.

(** C16: after run_bfs, get_path(n) holds one valid row index per column. *)
Theorem C16_cpp_get_path_valid_bfs :
  forall (K : CostStruct) (F : Type) (f1 : F) (sq_acc : K -> F -> F -> F -> K) n data ow (s : cgraph K F),
  uniform n data -> load f1 n data ow = Ok s ->
  forall s', run_bfs sq_acc s = Ok s' ->
  exists js, get_path (length data) s' = Ok (Some (map Z.of_nat js)) /\ in_range data js.
Proof. exact cpp_bfs_rows. Qed.
Print Assumptions C16_cpp_get_path_valid_bfs.

(** C16: after run_dijkstra, for every queue that loses and adds nothing. *)
Theorem C16_cpp_get_path_valid_dijkstra :
  forall (K : CostStruct) (F : Type) (f1 : F) (sq_acc : K -> F -> F -> F -> K) n data ow (s : cgraph K F),
  uniform n data -> load f1 n data ow = Ok s ->
  forall pq, pq_ok pq -> Forall (fun col => col <> []) data ->
  (forall js p, picks data js p -> clt (walk_cost (jcost sq_acc (eff_weights f1 n ow)) p) cinf = true) ->
  exists s', run_dijkstra sq_acc pq s = Ok s' /\
  exists js, get_path (length data) s' = Ok (Some (map Z.of_nat js)) /\ in_range data js.
Proof. exact cpp_dij_rows. Qed.
Print Assumptions C16_cpp_get_path_valid_dijkstra.

(** C16: the heap of libstdc++ is such a queue, whatever happens to the distances. *)
Theorem C16_cpp_stl_heap_keeps_elements :
  forall (K : CostStruct) (F : Type), pq_ok (@stl_queue K F).
Proof. exact @stl_queue_ok. Qed.
Print Assumptions C16_cpp_stl_heap_keeps_elements.

(** C16: another length leaves the array untouched; before a search it is all -1. *)
Theorem C16_cpp_get_path_other_length :
  forall (K : CostStruct) (F : Type) (f1 : F) (sq_acc : K -> F -> F -> F -> K) n data ow (s : cgraph K F),
  uniform n data -> load f1 n data ow = Ok s ->
  forall s' m, run_bfs sq_acc s = Ok s' -> m <> length data -> get_path m s' = Ok None.
Proof. exact cpp_get_path_other_length. Qed.
Print Assumptions C16_cpp_get_path_other_length.

Theorem C16_cpp_get_path_before_search :
  forall (K : CostStruct) (F : Type) (f1 : F) n data ow (s : cgraph K F),
  uniform n data -> load f1 n data ow = Ok s ->
  forall m, get_path m s = Ok (Some (repeat (-1)%Z m)).
Proof. exact cpp_get_path_before. Qed.
Print Assumptions C16_cpp_get_path_before_search.

(** C17: get_path_cost() is the cost of the rows get_path returns. *)
Theorem C17_cpp_cost_of_path_bfs :
  forall (K : CostStruct) (F : Type) (f1 : F) (sq_acc : K -> F -> F -> F -> K) n data ow (s : cgraph K F),
  uniform n data -> load f1 n data ow = Ok s ->
  forall s', run_bfs sq_acc s = Ok s' ->
  exists js p, get_path (length data) s' = Ok (Some (map Z.of_nat js)) /\ picks data js p /\
    get_path_cost s' = walk_cost (jcost sq_acc (eff_weights f1 n ow)) p.
Proof. exact cpp_bfs_path. Qed.
Print Assumptions C17_cpp_cost_of_path_bfs.

Theorem C17_cpp_cost_of_path_dijkstra :
  forall (K : CostStruct) (F : Type) (f1 : F) (sq_acc : K -> F -> F -> F -> K) n data ow (s : cgraph K F),
  uniform n data -> load f1 n data ow = Ok s ->
  forall pq, pq_ok pq -> Forall (fun col => col <> []) data ->
  (forall js p, picks data js p -> clt (walk_cost (jcost sq_acc (eff_weights f1 n ow)) p) cinf = true) ->
  exists s', run_dijkstra sq_acc pq s = Ok s' /\
  exists js p, get_path (length data) s' = Ok (Some (map Z.of_nat js)) /\ picks data js p /\
    get_path_cost s' = walk_cost (jcost sq_acc (eff_weights f1 n ow)) p.
Proof. exact cpp_dij_path. Qed.
Print Assumptions C17_cpp_cost_of_path_dijkstra.

(** C18 is false: exact integer arithmetic, unit weights, four columns; the
    heap is not rebuilt when a distance drops and the result costs 45, not 35. *)
Theorem C18_cpp_dijkstra_optimal_refuted :
  exists s s' p,
  uniform 1 heap_cols /\ load 1%Z 1 heap_cols None = Ok s /\ run_dijkstra zsq stl_queue s = Ok s' /\
  get_path 4 s' = Ok (Some [0; 0; 1; 0]%Z) /\ get_path_cost s' = Some 45%Z /\
  picks heap_cols [0; 1; 0; 0] p /\ walk_cost (jcost zsq [1%Z]) p = Some 35%Z.
Proof. exact cpp_dij_refuted. Qed.
Print Assumptions C18_cpp_dijkstra_optimal_refuted.

(** C19: optimal when every pop returns a current minimum and no cost is negative. *)
Theorem C19_cpp_dijkstra_optimal_with_min_queue :
  forall (K : CostStruct) (F : Type) (f1 : F) (sq_acc : K -> F -> F -> F -> K) n data ow (s : cgraph K F),
  uniform n data -> load f1 n data ow = Ok s ->
  forall pq, pq_ok pq -> Forall (fun col => col <> []) data ->
  (forall js p, picks data js p -> clt (walk_cost (jcost sq_acc (eff_weights f1 n ow)) p) cinf = true) ->
  pops_minimum pq ->
  (forall x y d, adjacent data x y -> cle d (cadd d (jcost sq_acc (eff_weights f1 n ow) x y))) ->
  exists s', run_dijkstra sq_acc pq s = Ok s' /\
  exists js p, get_path (length data) s' = Ok (Some (map Z.of_nat js)) /\ picks data js p /\
    forall js' p', picks data js' p' ->
      cle (walk_cost (jcost sq_acc (eff_weights f1 n ow)) p) (walk_cost (jcost sq_acc (eff_weights f1 n ow)) p').
Proof. exact cpp_dij_min. Qed.
Print Assumptions C19_cpp_dijkstra_optimal_with_min_queue.

(** C19 in exact real arithmetic: non-negative weights suffice. *)
Theorem C19_cpp_dijkstra_optimal_real :
  forall (n : nat) (data : list (list (list R))) ow s (pq : pqueue RCost R),
  uniform n data -> Forall (fun col => col <> []) data -> load 1%R n data ow = Ok s ->
  (forall w, ow = Some w -> Forall (fun x => 0 <= x)%R w) -> pq_ok pq -> pops_minimum pq ->
  exists s', run_dijkstra rsq pq s = Ok s' /\
  exists js p, get_path (length data) s' = Ok (Some (map Z.of_nat js)) /\ picks data js p /\
    forall js' p', picks data js' p' ->
      cle (walk_cost (jcost rsq (eff_weights 1%R n ow)) p) (walk_cost (jcost rsq (eff_weights 1%R n ow)) p').
Proof. exact cpp_dij_real. Qed.
Print Assumptions C19_cpp_dijkstra_optimal_real.

(** C20: one pop per row is enough for both loops. *)
Theorem C20_cpp_bfs_terminates :
  forall (K : CostStruct) (F : Type) (f1 : F) (sq_acc : K -> F -> F -> F -> K) n data ow (s : cgraph K F),
  uniform n data -> load f1 n data ow = Ok s ->
  forall fuel, length (concat data) <= fuel ->
  exists a, bfs_loop (cexpand sq_acc (weights s) fifo_push) fuel (start_column (na s) 0) (col_refs (start_column (na s) 0) 0) = Ok a.
Proof. exact cpp_bfs_stops. Qed.
Print Assumptions C20_cpp_bfs_terminates.

Theorem C20_cpp_dijkstra_terminates :
  forall (K : CostStruct) (F : Type) (f1 : F) (sq_acc : K -> F -> F -> F -> K) n data ow (s : cgraph K F),
  uniform n data -> load f1 n data ow = Ok s ->
  forall (pq : pqueue K F) fuel g, pq_ok pq -> length (concat data) <= fuel ->
  exists r, dij_loop sq_acc pq (weights s) (max_path_index s) fuel (start_column (na s) 0)
    (fold_left (fun q r => pq_push pq (start_column (na s) 0) q r) (col_refs (start_column (na s) 0) 0) []) g = Ok r.
Proof. exact cpp_dij_stops. Qed.
Print Assumptions C20_cpp_dijkstra_terminates.

(** C21: a second run_bfs without reset leaves the whole object unchanged. *)
Theorem C21_cpp_bfs_idempotent :
  forall (K : CostStruct) (F : Type) (f1 : F) (sq_acc : K -> F -> F -> F -> K) n data ow (s : cgraph K F),
  uniform n data -> load f1 n data ow = Ok s ->
  forall s', run_bfs sq_acc s = Ok s' -> run_bfs sq_acc s' = Ok s'.
Proof. exact cpp_bfs_again. Qed.
Print Assumptions C21_cpp_bfs_idempotent.

(** C22: reset undoes any history of searches, resets and path queries. *)
Theorem C22_cpp_reset_forgets_history :
  forall (K : CostStruct) (F : Type) (f1 : F) (sq_acc : K -> F -> F -> F -> K) n data ow,
  uniform n data -> forall (pq : pqueue K F) s ops s1,
  pq_ok pq -> load f1 n data ow = Ok s -> foldM (cexec sq_acc pq) ops s = Ok s1 ->
  exists s2, creset s1 = Ok s2 /\ run_bfs sq_acc s2 = run_bfs sq_acc s /\
    forall pq', run_dijkstra sq_acc pq' s2 = run_dijkstra sq_acc pq' s.
Proof. exact @history_reset. Qed.
Print Assumptions C22_cpp_reset_forgets_history.

(** C23 is false: a second init makes the next search crash ... *)
Theorem C23_cpp_init_twice_refuted :
  exists (data : list (list (list Z))) s s1 s2,
  uniform 1 data /\ load 1%Z 1 data None = Ok s /\ run_bfs zsq s = Ok s1 /\ init 1%Z s = Ok s2 /\
  run_bfs zsq s2 <> Ok s1 /\ get_path 2 s1 = Ok (Some [0; 0]%Z) /\ forall s3, run_bfs zsq s2 <> Ok s3.
Proof. exact cpp_init_twice_refuted. Qed.
Print Assumptions C23_cpp_init_twice_refuted.

(** ... always. *)
Theorem C23_cpp_init_twice_always_crashes :
  forall (K : CostStruct) (F : Type) (f1 : F) (sq_acc : K -> F -> F -> F -> K) n data ow,
  uniform n data -> forall s : cgraph K F, load f1 n data ow = Ok s ->
  exists s2, init f1 s = Ok s2 /\ run_bfs sq_acc s2 = Raise NullDeref.
Proof. exact @double_init. Qed.
Print Assumptions C23_cpp_init_twice_always_crashes.

(** C24: weights of the right length are used, others are replaced by ones. *)
Theorem C24_cpp_weights_selected :
  forall (K : CostStruct) (F : Type) (f1 : F) n data (w : list F),
  uniform n data -> forall s : cgraph K F, load f1 n data (Some w) = Ok s ->
  (length w = n -> weights s = w) /\ (length w <> n -> weights s = repeat f1 n /\ load f1 n data None = Ok s).
Proof. exact @weights_used. Qed.
Print Assumptions C24_cpp_weights_selected.

Theorem C24_cpp_weights_enter_the_cost :
  forall (K : CostStruct) (F : Type) (f1 : F) (sq_acc : K -> F -> F -> F -> K) n data ow (s : cgraph K F),
  uniform n data -> load f1 n data ow = Ok s ->
  forall w s', ow = Some w -> length w = n -> run_bfs sq_acc s = Ok s' ->
  exists js p, get_path (length data) s' = Ok (Some (map Z.of_nat js)) /\ picks data js p /\
    get_path_cost s' = walk_cost (jcost sq_acc w) p.
Proof. exact cpp_weights_cost. Qed.
Print Assumptions C24_cpp_weights_enter_the_cost.

(** C107: after any pushes and pops with the same distances a pop returns a minimum ... *)
Theorem C107_heap_pops_minimum : forall (K : CostStruct) (F : Type) (a : narr K (list F)) os r h',
  heap_pop a (fold_left (heap_step a) os []) = Some (r, h') ->
  forall x, In x (fold_left (heap_step a) os []) -> cle (dist_of a r) (dist_of a x).
Proof. exact @heap_pops_min. Qed.
Print Assumptions C107_heap_pops_minimum.
(** C107: ... but not after the distance of a queued node was lowered, as run_dijkstra does. *)
Theorem C107_lowered_distance_refuted : exists r h x, heap_pop (three 1 2 0) (push_all (three 1 2 3)) = Some (r, h) /\ In x (push_all (three 1 2 3)) /\
  clt (dist_of (three 1 2 0) x) (dist_of (three 1 2 0) r) = true.
Proof. exact changed_distance. Qed.
Print Assumptions C107_lowered_distance_refuted.
Example C107_example : heap_pop (three 3 1 2) (push_all (three 3 1 2)) = Some ((0, 1), [(0, 2); (0, 0)]).
Proof. reflexivity. Qed.

(** Non-vacuity. *)
Example ex_cpp_load_bfs : exists s s', uniform 1 heap_cols /\ load 1%Z 1 heap_cols (Some [2%Z]) = Ok s /\
  run_bfs zsq s = Ok s' /\ get_path 4 s' = Ok (Some [0; 1; 0; 0]%Z) /\ get_path_cost s' = Some 70%Z.
Proof. do 2 eexists. split; [unfold uniform, heap_cols; repeat constructor|]. repeat (split; [vm_compute; reflexivity|]). vm_compute. reflexivity. Qed.
Example ex_cpp_finite : forall js p, picks heap_cols js p -> clt (walk_cost (K := ZCost) (jcost zsq [1%Z]) p) cinf = true.
Proof.
  assert (H1 : forall x y, exists d, jcost zsq [1%Z] x y = Some d).
  { intros [|a x] [|b y]; unfold jcost; cbn; eauto; destruct x, y; cbn; eauto. }
  assert (H : forall p x d, exists e, walk_cost_from (K := ZCost) (jcost zsq [1%Z]) (Some d) x p = Some e).
  { induction p as [|y p IH]; intros x d; cbn [walk_cost_from]; eauto. destruct (H1 x y) as (e & ->). apply IH. }
  intros js [|x p] _; [reflexivity|]. cbn [walk_cost]. destruct (H p x 0%Z) as (e & E). simpl in *. rewrite E. reflexivity.
Qed.
Example ex_cpp_crash : exists s, uniform 1 [[[1%Z]]; []] /\ load 1%Z 1 [[[1%Z]]; []] None = Ok s /\ run_bfs zsq s = Raise NullDeref.
Proof. eexists. split; [unfold uniform; repeat constructor|]. split; vm_compute; reflexivity. Qed.
Example ex_cpp_min_queue : pq_ok (@scan_queue RCost R) /\ pops_minimum (@scan_queue RCost R).
Proof. split; [apply scan_queue_ok|apply scan_queue_min]. Qed.
Example ex_cpp_history : exists s s1, load 1%Z 1 heap_cols None = Ok s /\
  foldM (cexec zsq stl_queue) [ODij; OPath 4; OBfs; OReset; ODij] s = Ok s1 /\ s1 <> s.
Proof. do 2 eexists. split; [vm_compute; reflexivity|]. split; [vm_compute; reflexivity|]. vm_compute. discriminate. Qed.
Example ex_cpp_wrong_weights : exists s, load 1%Z 1 heap_cols (Some [1; 2]%Z) = Ok (s : cgraph ZCost Z) /\ weights s = [1%Z].
Proof. eexists. split; vm_compute; reflexivity. Qed.
