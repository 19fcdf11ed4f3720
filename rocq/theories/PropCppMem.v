(** * Property theorems C167: addresses in the C++ graph (acrobotics/cpp/src/graph.cpp).

    [mem_call] runs the public functions on blocks of memory, where a vector that grows
    moves its nodes and frees the old block; [pos_call] runs them on positions in the node
    array, as in [CppGraph].  [answers step cs s]: what the calls [cs] return, up to and
    including the first failure. *)
From Coq Require Import List Arith ZArith Lia Bool.
From Verif Require Import PyBase Cost SpecPath GraphCommon CppGraph CppGraphProofs CppExamples CppMem CppMemProofs CppMemRuns CppMemStale.
Import ListNotations.
Local Open Scope nat_scope.

(** C167: every program of add_data_column, set_weights, init, reset, run_bfs,
    run_dijkstra, get_path, get_path_cost, print_path and print_graph_data answers alike; no address is
    out of date when it is followed. *)
Theorem C167_answers : forall (K : CostStruct) (F : Type) (f1 : F) (sq_acc : K -> F -> F -> F -> K) (cs : list (call F)),
  (forall c, In c cs -> c <> CPrint) -> answers (mem_call f1 sq_acc) cs mnew = answers (pos_call f1 sq_acc) cs cnew.
Proof. exact @answers_same. Qed.
Print Assumptions C167_answers.

(** ... and with print_graph, when init is not called after a search before a reset. *)
Theorem C167_answers_printed : forall (K : CostStruct) (F : Type) (f1 : F) (sq_acc : K -> F -> F -> F -> K) (cs : list (call F)),
  in_order false cs = true -> answers (mem_call f1 sq_acc) cs mnew = answers (pos_call f1 sq_acc) cs cnew.
Proof. exact @answers_order. Qed.
Print Assumptions C167_answers_printed.

(** C167: the calls of planning.get_shortest_path on memory: nothing fails, print_path
    shows the rows of the path, and the path is optimal. *)
Theorem C167_plan : forall (K : CostStruct) (F : Type) (f1 : F) (sq_acc : K -> F -> F -> F -> K) n data ow (s : cgraph K F),
  uniform n data -> load f1 n data ow = Ok s ->
  (exists js p, picks data js p /\ clt (walk_cost (jcost sq_acc (eff_weights f1 n ow)) p) cinf = true) ->
  exists js p l, picks data js p /\
    answers (mem_call f1 sq_acc) (plan_calls n data ow) mnew =
    repeat (Ok ANone) (S (length (load_calls n data ow))) ++ [Ok (APrint [l]); Ok (APath (Some (map Z.of_nat js))); Ok (ACost (walk_cost (jcost sq_acc (eff_weights f1 n ow)) p))] /\
    map (fun r => fst (fst (fst r))) l = combine (seq 0 (length js)) js /\
    forall js' p', picks data js' p' -> cle (walk_cost (jcost sq_acc (eff_weights f1 n ow)) p) (walk_cost (jcost sq_acc (eff_weights f1 n ow)) p').
Proof. exact @mem_plan. Qed.
Print Assumptions C167_plan.

(** C167: after the search print_graph shows one line per row of every column. *)
Theorem C167_print_graph : forall (K : CostStruct) (F : Type) (f1 : F) (sq_acc : K -> F -> F -> F -> K) n data ow (s : cgraph K F),
  uniform n data -> load f1 n data ow = Ok s ->
  (exists js p, picks data js p /\ clt (walk_cost (jcost sq_acc (eff_weights f1 n ow)) p) cinf = true) ->
  exists g, answers (mem_call f1 sq_acc) (load_calls n data ow ++ [CBfs; CPrint]) mnew = repeat (Ok ANone) (S (length (load_calls n data ow))) ++ [Ok (APrint g)] /\
    map (@length _) g = map (@length _) data.
Proof. exact @mem_print. Qed.
Print Assumptions C167_print_graph.

(** C167: init after a search always frees the nodes the parents point to; print_graph
    then reads freed memory. *)
Theorem C167_second_init_frees : forall (K : CostStruct) (F : Type) (f1 : F) (sq_acc : K -> F -> F -> F -> K) n data ow (s : cgraph K F),
  uniform n data -> 2 <= length data -> load f1 n data ow = Ok s ->
  (exists js p, picks data js p /\ clt (walk_cost (jcost sq_acc (eff_weights f1 n ow)) p) cinf = true) ->
  answers (mem_call f1 sq_acc) (load_calls n data ow ++ [CBfs; CInit; CPrint]) mnew = repeat (Ok ANone) (S (S (length (load_calls n data ow)))) ++ [Raise OutOfBounds].
Proof. exact @init_again. Qed.
Print Assumptions C167_second_init_frees.

(** C167 in full is false: with positions instead of addresses that print goes through. *)
Theorem C167_answers_all_refuted : exists cs : list (call Z), answers (mem_call (K := ZCost) 1%Z zsq) cs mnew <> answers (pos_call 1%Z zsq) cs cnew.
Proof. exact answers_differ. Qed.
Print Assumptions C167_answers_all_refuted.

Example C167_run : answers (mem_call (K := ZCost) 1%Z zsq) (plan_calls 1 [[[0]; [5]]; [[7]; [4]; [9]]; [[3]]]%Z None) mnew =
  [Ok ANone; Ok ANone; Ok ANone; Ok ANone; Ok ANone;
   Ok (APrint (K := ZCost) [[(0, 1, Some 0%Z, 0, 0); (1, 1, Some 1%Z, 0, 1); (2, 0, Some 2%Z, 1, 1)]]);
   Ok (APath (Some [1; 1; 0]%Z)); Ok (ACost (K := ZCost) (Some 2%Z))].
Proof. vm_compute. reflexivity. Qed.
Example C167_moved : answers (mem_call (K := ZCost) 1%Z zsq) (load_calls 1 [[[0]; [5]]; [[7]; [4]; [9]]]%Z None ++ [CDijkstra; CInit; CReset; CPrint; CPath 4; CBfs]) mnew =
  answers (pos_call (K := ZCost) 1%Z zsq) (load_calls 1 [[[0]; [5]]; [[7]; [4]; [9]]]%Z None ++ [CDijkstra; CInit; CReset; CPrint; CPath 4; CBfs]) cnew /\
  last (answers (mem_call (K := ZCost) 1%Z zsq) (load_calls 1 [[[0]; [5]]; [[7]; [4]; [9]]]%Z None ++ [CDijkstra; CInit; CReset; CPrint; CPath 4; CBfs]) mnew) (Ok ANone) = Raise NullDeref.
Proof. vm_compute. split; reflexivity. Qed.
Example C167_data : uniform 1 [[[0]; [5]]; [[7]; [4]; [9]]]%Z /\ exists s : cgraph ZCost Z, load 1%Z 1 [[[0]; [5]]; [[7]; [4]; [9]]]%Z None = Ok s.
Proof. split; [repeat constructor|vm_compute; eauto]. Qed.
