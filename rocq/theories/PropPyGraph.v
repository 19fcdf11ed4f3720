(** * Property theorems C06-C14: the search of acrobotics/pygraph.py.

    [cost] is the cost function as called by the code (value or exception) and
    [ct] its value on samples of consecutive columns. *)
From Coq Require Import List Arith Lia Bool ZArith Reals.
From Verif Require Import PyBase Cost CostFloat SpecPath GraphCommon PyGraph PyGraphProofs PyGraphSeg PyCost PyGraphMain.
Import ListNotations.
Local Open Scope nat_scope.

(** C06: a successful result is a lower bound on every path. *)
Theorem C06_pygraph_shortest_path_optimal :
  forall (K : CostStruct) (D : Type) (cost : D -> D -> res K) (ct : D -> D -> K) (data : list (list D)) path c,
  (forall x y, adjacent data x y -> cost x y = Ok (ct x y)) ->
  get_shortest_path cost data = Ok (SpOk path c) ->
  forall js p, picks data js p -> cle c (walk_cost ct p).
Proof. exact @pg_optimal. Qed.
Print Assumptions C06_pygraph_shortest_path_optimal.

(** C06 for the code's own cost, arccos(min(|u @ v|, 1)). *)
Theorem C06_pygraph_shortest_path_optimal_arccos :
  forall (data : list (list (list R))) n path c,
  Forall (Forall (fun u => length u = n)) data ->
  get_shortest_path py_cost data = Ok (SpOk path c) ->
  forall js p, picks data js p -> cle c (walk_cost arc_cost p).
Proof. exact pg_optimal_arccos. Qed.
Print Assumptions C06_pygraph_shortest_path_optimal_arccos.

(** C07: the path takes one sample of every column and costs total_cost. *)
Theorem C07_pygraph_path_and_cost_agree :
  forall (K : CostStruct) (D : Type) (cost : D -> D -> res K) (ct : D -> D -> K) (data : list (list D)) path c,
  (forall x y, adjacent data x y -> cost x y = Ok (ct x y)) ->
  get_shortest_path cost data = Ok (SpOk path c) ->
  (exists js, picks data js path) /\ walk_cost ct path = c.
Proof. exact @pg_agree. Qed.
Print Assumptions C07_pygraph_path_and_cost_agree.

(** C08: success=False exactly when no path has a finite cost; no exception. *)
Theorem C08_pygraph_fails_iff_no_finite_path :
  forall (K : CostStruct) (D : Type) (cost : D -> D -> res K) (ct : D -> D -> K) (data : list (list D)),
  data <> [] -> (forall x y, adjacent data x y -> cost x y = Ok (ct x y)) ->
  exists r, get_shortest_path cost data = Ok r /\
    (r = SpFail <-> forall js p, picks data js p -> clt (walk_cost ct p) cinf = false).
Proof. exact @pg_fails_iff. Qed.
Print Assumptions C08_pygraph_fails_iff_no_finite_path.

(** C08, in particular: an empty column always means success=False. *)
Theorem C08_pygraph_fails_with_empty_column :
  forall (K : CostStruct) (D : Type) (cost : D -> D -> res K) (ct : D -> D -> K) (data : list (list D)),
  In [] data -> (forall x y, adjacent data x y -> cost x y = Ok (ct x y)) ->
  get_shortest_path cost data = Ok SpFail.
Proof. exact @pg_empty_column. Qed.
Print Assumptions C08_pygraph_fails_with_empty_column.

(** C09: with a step limit the result respects the limit and is optimal. *)
Theorem C09_pygraph_step_limit_respected_and_optimal :
  forall (K : CostStruct) (D : Type) (cost : D -> D -> res K) (ct : D -> D -> K) (data : list (list D)) m path c,
  (forall x y, adjacent data x y -> cost x y = Ok (ct x y)) ->
  get_shortest_partial_path cost data m = Ok (PpOk path c) ->
  (exists js, picks data js path) /\ walk_cost ct path = c /\ steps_below ct m path /\
  forall js p, picks data js p -> steps_below ct m p -> cle c (walk_cost ct p).
Proof. exact @pg_limit. Qed.
Print Assumptions C09_pygraph_step_limit_respected_and_optimal.

(** C10: otherwise the furthest reachable column, with an optimal path to it. *)
Theorem C10_pygraph_partial_path_reaches_furthest_column :
  forall (K : CostStruct) (D : Type) (cost : D -> D -> res K) (ct : D -> D -> K) (data : list (list D)) m,
  data <> [] -> (forall x y, adjacent data x y -> cost x y = Ok (ct x y)) ->
  (forall js p, picks data js p -> steps_below ct m p -> clt (walk_cost ct p) cinf = false) ->
  (get_shortest_partial_path cost data m = Ok PpStuck /\
   forall t js p, 1 <= t -> t < length data -> picks (firstn (S t) data) js p -> steps_below ct m p ->
     clt (walk_cost ct p) cinf = false) \/
  (exists path c i, get_shortest_partial_path cost data m = Ok (PpPartial path c i) /\ 1 <= i /\
   (exists js, picks (firstn (S i) data) js path) /\ walk_cost ct path = c /\ clt c cinf = true /\
   steps_below ct m path /\
   (forall js p, picks (firstn (S i) data) js p -> steps_below ct m p -> cle c (walk_cost ct p)) /\
   forall t js p, i < t -> t < length data -> picks (firstn (S t) data) js p -> steps_below ct m p ->
     clt (walk_cost ct p) cinf = false).
Proof. exact @pg_partial. Qed.
Print Assumptions C10_pygraph_partial_path_reaches_furthest_column.

(** C11: the search loop ends after at most one removal per sample. *)
Theorem C11_pygraph_search_terminates :
  forall (K : CostStruct) (D : Type) (cost : D -> D -> res K) (ct : D -> D -> K) (data : list (list D)) m start,
  (forall x y, adjacent data x y -> cost x y = Ok (ct x y)) -> start < length data ->
  exists na', forall fuel, length (concat data) <= fuel ->
    bfs_loop (expand cost (length data) m) fuel (start_column (data_to_node_array data) start)
      (col_refs (start_column (@data_to_node_array K D data) start) start) = Ok na'.
Proof. exact @run_loop_bound. Qed.
Print Assumptions C11_pygraph_search_terminates.

(** C11 for a cost function that may raise: the bound never stops the loop. *)
Theorem C11_pygraph_search_never_out_of_fuel :
  forall (K : CostStruct) (D : Type) (cost : D -> D -> res K) (data : list (list D)) m start,
  (forall x y, cost x y <> OutOfFuel) ->
  run_multi_source_bfs cost m start (new_graph data) <> OutOfFuel.
Proof. exact @run_never_stuck. Qed.
Print Assumptions C11_pygraph_search_never_out_of_fuel.

(** C12: the result of a search does not depend on what was called before. *)
Theorem C12_pygraph_graph_reuse :
  forall (K : CostStruct) (D : Type) (cost : D -> D -> res K) (ct : D -> D -> K) (data : list (list D)) ops m start,
  (forall x y, adjacent data x y -> cost x y = Ok (ct x y)) ->
  run_multi_source_bfs cost m start (fold_left (exec cost) ops (new_graph data)) =
  run_multi_source_bfs cost m start (new_graph data).
Proof. exact @pg_reuse. Qed.
Print Assumptions C12_pygraph_graph_reuse.

(** C13 is false: the loop can run forever ... *)
Theorem C13_pygraph_segments_returns_refuted :
  exists (data : list (list nat)) (cost : nat -> nat -> res ZCost) (m : ZCost),
  data <> [] /\ Forall (fun col => col <> []) data /\
  (forall x y, exists c, cost x y = Ok c) /\
  forall fuel, get_shortest_path_segments cost fuel data m = OutOfFuel.
Proof. exact pg_segments_diverge. Qed.
Print Assumptions C13_pygraph_segments_returns_refuted.

(** ... and one or two columns always raise IndexError. *)
Theorem C13_pygraph_segments_two_columns_raise :
  forall (K : CostStruct) (D : Type) (cost : D -> D -> res K) fuel (data : list (list D)) m,
  length data <= 2 -> get_shortest_path_segments cost fuel data m = Raise IndexError.
Proof. exact @segments_short. Qed.
Print Assumptions C13_pygraph_segments_two_columns_raise.

(** C13, what holds: a call that needs more rounds than there are columns
    (minus two) never returns. *)
Theorem C13_pygraph_segments_termination_decided_partial :
  forall (K : CostStruct) (D : Type) (cost : D -> D -> res K) (ct : D -> D -> K) (data : list (list D)) m fuel,
  (forall x y, adjacent data x y -> cost x y = Ok (ct x y)) ->
  get_shortest_path_segments cost (length data - 2) data m = OutOfFuel ->
  get_shortest_path_segments cost fuel data m = OutOfFuel.
Proof. exact @pg_segments_decided. Qed.
Print Assumptions C13_pygraph_segments_termination_decided_partial.

(** C14: a complete step-limited path gives exactly that path as single segment. *)
Theorem C14_pygraph_segments_single_path :
  forall (K : CostStruct) (D : Type) (cost : D -> D -> res K) (ct : D -> D -> K) (data : list (list D)) m fuel js0 p0,
  3 <= length data -> 1 <= fuel ->
  (forall x y, adjacent data x y -> cost x y = Ok (ct x y)) ->
  picks data js0 p0 -> steps_below ct m p0 -> clt (walk_cost ct p0) cinf = true ->
  exists path c, get_shortest_partial_path cost data m = Ok (PpOk path c) /\
    get_shortest_path_segments cost fuel data m =
      Ok (SegSol {| sg_success := true; sg_path := path; sg_cost := c; sg_single := Some true;
                    sg_split_points := None; sg_extra := None |}).
Proof. exact @pg_segments_single. Qed.
Print Assumptions C14_pygraph_segments_single_path.

(** C14, two segments: the second path starts at i+1, and the recorded split
    points are [i+1; i+1] (the start of the first path, 0, is not recorded). *)
Theorem C14_pygraph_segments_two_paths :
  forall (K : CostStruct) (D : Type) (cost : D -> D -> res K) fuel (data : list (list D)) m p c i p2 c2,
  2 <= fuel -> i + 3 < length data ->
  get_shortest_partial_path cost data m = Ok (PpPartial p c i) ->
  get_shortest_partial_path cost (skipn (i + 1) data) m = Ok (PpOk p2 c2) ->
  get_shortest_path_segments cost fuel data m =
    Ok (SegSol {| sg_success := true; sg_path := p; sg_cost := c; sg_single := Some false;
                  sg_split_points := Some [i + 1; i + 1]; sg_extra := Some [(p2, c2)] |}).
Proof. exact @segments_two. Qed.
Print Assumptions C14_pygraph_segments_two_paths.

(** Non-vacuity: the hypotheses are met by concrete data. *)
Definition ex_cost (a b : Z) : res ZCost := Ok (Some ((a - b) * (a - b))%Z : ZCost).
Definition ex_ct (a b : Z) : ZCost := Some ((a - b) * (a - b))%Z.
Definition ex_data : list (list Z) := [[0; 5]; [9; 4]; [7; 3; 0]; [2]]%Z.

Example ex_hyp : forall x y, adjacent ex_data x y -> ex_cost x y = Ok (ex_ct x y).
Proof. reflexivity. Qed.
Example ex_success : get_shortest_path ex_cost ex_data = Ok (SpOk [5; 4; 3; 2]%Z (Some 3%Z : ZCost)).
Proof. vm_compute. reflexivity. Qed.
Example ex_path : picks ex_data [1; 1; 1; 0] [5; 4; 3; 2]%Z.
Proof. simpl. auto. Qed.
Example ex_fail : get_shortest_path ex_cost [[0]; []; [2]]%Z = Ok SpFail.
Proof. vm_compute. reflexivity. Qed.
Example ex_fail_infinite : get_shortest_path (fun _ _ : Z => Ok (None : ZCost)) [[0]; [2]]%Z = Ok SpFail.
Proof. vm_compute. reflexivity. Qed.
Example ex_limit : get_shortest_partial_path ex_cost [[0]; [3; 1]; [4; 2]]%Z (Some 5%Z : ZCost) =
  Ok (PpOk [0; 1; 2]%Z (Some 2%Z : ZCost)).
Proof. vm_compute. reflexivity. Qed.
Example ex_partial : get_shortest_partial_path ex_cost [[0]; [3; 1]; [9]]%Z (Some 5%Z : ZCost) =
  Ok (PpPartial [0; 1]%Z (Some 1%Z : ZCost) 1).
Proof. vm_compute. reflexivity. Qed.
Example ex_stuck : get_shortest_partial_path ex_cost [[0]; [9]; [9]]%Z (Some 5%Z : ZCost) = Ok PpStuck.
Proof. vm_compute. reflexivity. Qed.
Example ex_segments : get_shortest_path_segments ex_cost 1 ex_data (Some 5%Z : ZCost) =
  Ok (SegSol {| sg_success := true; sg_path := [5; 4; 3; 2]%Z; sg_cost := Some 3%Z : ZCost; sg_single := Some true;
                sg_split_points := None; sg_extra := None |}).
Proof. vm_compute. reflexivity. Qed.
Example ex_two : get_shortest_path_segments ex_cost 2 [[0]; [1]; [9]; [9]; [8]]%Z (Some 5%Z : ZCost) =
  Ok (SegSol {| sg_success := true; sg_path := [0; 1]%Z; sg_cost := Some 1%Z : ZCost; sg_single := Some false;
                sg_split_points := Some [2; 2]; sg_extra := Some [([9; 9; 8]%Z, Some 1%Z : ZCost)] |}).
Proof. vm_compute. reflexivity. Qed.
Example ex_raise : run_multi_source_bfs (fun _ _ : nat => Raise ValueError : res ZCost) cinf 0 (new_graph [[0]; [1]])
  = Raise ValueError.
Proof. vm_compute. reflexivity. Qed.
Example ex_history : fold_left (exec ex_cost) [ORun (Some 1%Z : ZCost) 2; OGetPath (Some 3); ORun (Some 1%Z : ZCost) 9; OReset; ORun cinf 1]
  (new_graph ex_data) <> new_graph ex_data.
Proof. intros H. vm_compute in H. discriminate H. Qed.
