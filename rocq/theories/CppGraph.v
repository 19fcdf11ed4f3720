(** * Model of acrobotics/cpp: graph.h and graph.cpp.

    Simplifications: float values live in an abstract type F; [sq_acc acc w a b]
    is the accumulation [acc += w * pow(a - b, 2.0)] and yields a cost that is
    not NaN (NaN is in [Nan], C169); indices are unbounded naturals; pointers to nodes are positions
    in the node array; vector reallocation and printing are in [CppMem], where
    C167 shows that programs answer alike with addresses.  Undefined behaviour is an
    exception: OutOfBounds for vector accesses, NullDeref for null pointers.
    cost_function, visit, init_unvisited, sort_function (unused), set_graph_data
    and int indices are in [CppUnused] (C170).  Not modelled: the SWIG wrapper. *)
From Coq Require Import List Arith ZArith Lia Bool.
From Verif Require Import PyBase Cost GraphCommon.
Import ListNotations.

Section Cpp.
Context {K : CostStruct} {F : Type}.
Context (f1 : F) (sq_acc : K -> F -> F -> F -> K).

(** graph.h:15 joint_value *)
Local Notation jv := (list F).

(** graph.h:58-68 the data members of class Graph *)
Record cgraph : Type := mkCG {
  gd : list (list jv); na : narr K jv; path_found : bool; shortest_path_cost : K;
  num_goals : nat; max_path_index : nat; weights : list F }.

(** graph.h:63-68 default member initialisers *)
Definition cnew : cgraph := mkCG [] [] false cinf 0 0 [].

(** graph.cpp:271-286 add_data_column: mat[j + ncols * i] *)
Definition mat_row (mat : list F) (ncols i : nat) : res jv :=
  mapM (fun j => match nth_error mat (j + ncols * i) with Some x => Ok x | None => Raise OutOfBounds end)
       (seq 0 ncols).
Definition add_data_column (mat : list F) (nrows ncols : nat) (s : cgraph) : res cgraph :=
  new_col <- mapM (mat_row mat ncols) (seq 0 nrows) ;;
  Ok (mkCG (gd s ++ [new_col]) (na s) (path_found s) (shortest_path_cost s) (num_goals s) (max_path_index s) (weights s)).

(** graph.cpp:315-322 set_weights *)
Definition set_weights (w : list F) (s : cgraph) : cgraph :=
  mkCG (gd s) (na s) (path_found s) (shortest_path_cost s) (num_goals s) (max_path_index s) w.

(** graph.cpp:178-186 cost_function_2 *)
Fixpoint cost2_loop (w n1 n2 : list F) (acc : K) : res K :=
  match n1 with
  | [] => Ok acc
  | x :: n1' =>
      match w, n2 with
      | wi :: w', y :: n2' => cost2_loop w' n1' n2' (sq_acc acc wi x y)
      | _, _ => Raise OutOfBounds
      end
  end.
Definition cost2 (w : list F) (n1 n2 : jv) : res K := cost2_loop w n1 n2 czero.

(** graph.cpp:136 and 148-150: a node in its initial state *)
Fixpoint cmk_col (i j : nat) (col : list jv) : list (node K jv) :=
  match col with
  | [] => []
  | x :: col' => mkNode i j x cinf PDummy false :: cmk_col i (S j) col'
  end.
Definition creset_node (n : node K jv) : node K jv :=
  mkNode (n_pi n) (n_si n) (n_data n) cinf PDummy false.

(** graph.cpp:128-140 graph_data_to_node_array.  A column is appended at the
    back and the nodes of data column i are appended to na[i]. *)
Fixpoint to_node_array (i : nat) (data : list (list jv)) (a : narr K jv) : narr K jv :=
  match data with
  | [] => a
  | col :: data' =>
      let a1 := a ++ [[]] in
      to_node_array (S i) data' (upd a1 i (nth i a1 [] ++ cmk_col i 0 col))
  end.

(** graph.cpp:288-313 init *)
Definition init (s : cgraph) : res cgraph :=
  let a := to_node_array 0 (gd s) (na s) in
  match a with
  | [] => Raise OutOfBounds                     (* na[-1] *)
  | _ :: _ =>
      match gd s with
      | (row :: _) :: _ =>
          let ndof := length row in
          let w := if Nat.eqb (length (weights s)) ndof then weights s else repeat f1 ndof in
          Ok (mkCG (gd s) a false (shortest_path_cost s)
                (length (nth (length a - 1) a [])) (length a - 1) w)
      | _ => Raise OutOfBounds                  (* gd[0][0] *)
      end
  end.

(** graph.cpp:324-329 reset *)
Definition creset (s : cgraph) : res cgraph :=
  let a := map (map creset_node) (na s) in
  match a with
  | [] => Raise OutOfBounds
  | _ :: _ => Ok (mkCG (gd s) a (path_found s) (shortest_path_cost s)
                    (length (nth (length a - 1) a [])) (length a - 1) (weights s))
  end.

(** graph.cpp:203-219 get_neighbors *)
Definition get_neighbors (a : narr K jv) (n : node K jv) : res (list ref) :=
  if Nat.eqb (n_pi n) (length a - 1) then Ok []
  else match nth_error a (n_pi n + 1) with
       | Some _ => Ok (col_refs a (n_pi n + 1))
       | None => Raise OutOfBounds
       end.

(** graph.cpp:47-63 and 103-119: expansion of one node.  The cost is evaluated
    as cost_function_2(neighbour, current). *)
Definition cexpand (w : list F) (push : narr K jv -> list ref -> ref -> list ref)
  (a : narr K jv) (q : list ref) (cur : ref) : res (narr K jv * list ref) :=
  ncur <- deref a cur ;;
  nb <- get_neighbors a ncur ;;
  foldM (relax1 (fun c n => cost2 w n c) push cur) nb (a, q).

(** graph.cpp:21-67 multi_source_bfs *)
Definition multi_source_bfs (w : list F) (a : narr K jv) : res (narr K jv) :=
  match a with
  | [] => Raise OutOfBounds
  | _ :: _ =>
      let a0 := start_column a 0 in
      bfs_loop (cexpand w fifo_push) (count_nodes a0) a0 (col_refs a0 0)
  end.

(** A priority queue: push and pop read the current distances.  [pop] is
    top() followed by pop(), [None] when empty. *)
Record pqueue : Type := mkPQ {
  pq_push : narr K jv -> list ref -> ref -> list ref;
  pq_pop : narr K jv -> list ref -> option (ref * list ref) }.

(** graph.cpp:90-120 the loop of multi_source_dijkstra *)
Fixpoint dij_loop (pq : pqueue) (w : list F) (maxp : nat) (fuel : nat)
  (a : narr K jv) (q : list ref) (goals : nat) : res (narr K jv * nat) :=
  match goals with
  | O => Ok (a, goals)
  | S g' =>
      match pq_pop pq a q with
      | None => Ok (a, goals)
      | Some (cur, q') =>
          match fuel with
          | O => OutOfFuel
          | S fuel' =>
              ncur <- deref a cur ;;
              let goals' := if Nat.eqb (n_pi ncur) maxp then g' else goals in
              '(a', q'') <- cexpand w (pq_push pq) a q' cur ;;
              dij_loop pq w maxp fuel' a' q'' goals'
          end
      end
  end.

(** graph.cpp:69-123 multi_source_dijkstra; the start nodes are pushed one by one *)
Definition multi_source_dijkstra (pq : pqueue) (w : list F) (maxp goals : nat) (a : narr K jv)
  : res (narr K jv * nat) :=
  match a with
  | [] => Raise OutOfBounds
  | _ :: _ =>
      let a0 := start_column a 0 in
      let q0 := fold_left (fun q r => pq_push pq a0 q r) (col_refs a0 0) [] in
      dij_loop pq w maxp (count_nodes a0) a0 q0 goals
  end.

(** graph.cpp:228-237: the last column's first node of least distance below INF *)
Fixpoint best_goal (i j : nat) (col : list (node K jv)) (min_dist : K) (goal : parent) : parent :=
  match col with
  | [] => goal
  | n :: col' =>
      if clt (n_dist n) min_dist then best_goal i (S j) col' (n_dist n) (PNode i j)
      else best_goal i (S j) col' min_dist goal
  end.

(** graph.cpp:239-246: follow parents while path_index > 0.  PNone is the null
    pointer; DUMMY_NODE (a static object) has path_index 0. *)
Fixpoint cfollow (fuel : nat) (a : narr K jv) (p : parent) (acc : list parent) : res (list parent) :=
  match p with
  | PNone => Raise NullDeref
  | PDummy => Ok (p :: acc)
  | PNode i j =>
      match fuel with
      | O => OutOfFuel
      | S fuel' =>
          n <- deref a (i, j) ;;
          if Nat.ltb 0 (n_pi n) then cfollow fuel' a (n_parent n) (p :: acc) else Ok (p :: acc)
      end
  end.

(** graph.cpp:221-254 get_path_nodes *)
Definition get_path_nodes (found : bool) (a : narr K jv) : res (list parent) :=
  if found then
    match a with
    | [] => Raise OutOfBounds                   (* na.back() *)
    | _ :: _ =>
        let i := length a - 1 in
        cfollow (S (count_nodes a)) a (best_goal i 0 (nth i a []) cinf PNone) []
    end
  else Ok [].

(** The joint values and the sample index of a path element; DUMMY_NODE has a
    null joint value pointer and sample index 0. *)
Definition pt_data (a : narr K jv) (p : parent) : res jv :=
  match p with
  | PNode i j => n <- deref a (i, j) ;; Ok (n_data n)
  | _ => Raise NullDeref
  end.
Definition pt_index (a : narr K jv) (p : parent) : res nat :=
  match p with
  | PNode i j => n <- deref a (i, j) ;; Ok (n_si n)
  | PDummy => Ok 0
  | PNone => Raise NullDeref
  end.

(** graph.cpp:256-264 get_path_cost(path) *)
Fixpoint path_cost_loop (w : list F) (a : narr K jv) (prev : parent) (rest : list parent) (acc : K) : res K :=
  match rest with
  | [] => Ok acc
  | p :: rest' =>
      x <- pt_data a p ;;
      y <- pt_data a prev ;;
      c <- cost2 w x y ;;
      path_cost_loop w a p rest' (cadd acc c)
  end.
Definition path_cost (w : list F) (a : narr K jv) (path : list parent) : res K :=
  match path with
  | [] => Ok czero
  | p :: rest => path_cost_loop w a p rest czero
  end.

(** graph.cpp:331-338 run_bfs *)
Definition run_bfs (s : cgraph) : res cgraph :=
  a <- multi_source_bfs (weights s) (na s) ;;
  path <- get_path_nodes true a ;;
  c <- path_cost (weights s) a path ;;
  Ok (mkCG (gd s) a true c (num_goals s) (max_path_index s) (weights s)).

(** graph.cpp:340-348 run_dijkstra *)
Definition run_dijkstra (pq : pqueue) (s : cgraph) : res cgraph :=
  '(a, goals) <- multi_source_dijkstra pq (weights s) (max_path_index s) (num_goals s) (na s) ;;
  path <- get_path_nodes true a ;;
  c <- path_cost (weights s) a path ;;
  Ok (mkCG (gd s) a true c goals (max_path_index s) (weights s)).

(** graph.cpp:350-376 get_path; [None]: the output array is left as it was. *)
Definition get_path (n : nat) (s : cgraph) : res (option (list Z)) :=
  if path_found s then
    path <- get_path_nodes true (na s) ;;
    if Nat.eqb n (length path) then
      idx <- mapM (pt_index (na s)) path ;; Ok (Some (map Z.of_nat idx))
    else Ok None
  else Ok (Some (repeat (-1)%Z n)).

(** graph.cpp:378-381 get_path_cost() *)
Definition get_path_cost (s : cgraph) : K := shortest_path_cost s.
End Cpp.
Arguments cgraph : clear implicits.
Arguments pqueue : clear implicits.

(** ** std::priority_queue of libstdc++ (bits/stl_heap.h)
    with the comparison of graph.h:39-45, n2->dist < n1->dist.  The queue is
    not rebuilt when a distance changes. *)
Section Heap.
Context {K : CostStruct} {F : Type}.

Definition dist_of (a : narr K (list F)) (r : ref) : K :=
  match deref a r with Ok n => n_dist n | _ => cinf end.
Definition hnth (h : list ref) (i : nat) : ref := nth i h (0, 0).
Definition swap (h : list ref) (i j : nat) : list ref := upd (upd h i (hnth h j)) j (hnth h i).

(** __push_heap: move the value at [hole] towards the root. *)
Fixpoint sift_up (fuel : nat) (a : narr K (list F)) (h : list ref) (hole : nat) : list ref :=
  match fuel with
  | O => h
  | S fuel' =>
      if Nat.ltb 0 hole then
        let parent := (hole - 1) / 2 in
        if clt (dist_of a (hnth h hole)) (dist_of a (hnth h parent))
        then sift_up fuel' a (swap h hole parent) parent
        else h
      else h
  end.

(** __adjust_heap: the value at the hole first goes down to a leaf along the
    smaller children, then up again. *)
Fixpoint sift_down (fuel : nat) (a : narr K (list F)) (h : list ref) (hole : nat) : list ref * nat :=
  match fuel with
  | O => (h, hole)
  | S fuel' =>
      let len := length h in
      if Nat.ltb hole ((len - 1) / 2) then
        let c := 2 * (hole + 1) in
        let c := if clt (dist_of a (hnth h (c - 1))) (dist_of a (hnth h c)) then c - 1 else c in
        sift_down fuel' a (swap h hole c) c
      else if Nat.even len && Nat.eqb hole ((len - 2) / 2) && Nat.ltb 1 len then
        let c := 2 * (hole + 1) - 1 in (swap h hole c, c)
      else (h, hole)
  end.

Definition heap_push (a : narr K (list F)) (h : list ref) (r : ref) : list ref :=
  sift_up (S (length h)) a (h ++ [r]) (length h).
Definition heap_pop (a : narr K (list F)) (h : list ref) : option (ref * list ref) :=
  match h with
  | [] => None
  | top :: rest =>
      match rev rest with
      | [] => Some (top, [])
      | last :: _ =>
          let h1 := last :: removelast rest in
          let '(h2, hole) := sift_down (length h1) a h1 0 in
          Some (top, sift_up (length h1) a h2 hole)
      end
  end.
Definition stl_queue : pqueue K F := mkPQ heap_push heap_pop.
End Heap.

(** ** The call sequence used by planning.get_shortest_path: one
    add_data_column per column (row-major float arrays), optional weights, init. *)
Section Load.
Context {K : CostStruct} {F : Type} (f1 : F).
Definition load (ndof : nat) (data : list (list (list F))) (ow : option (list F)) : res (cgraph K F) :=
  s <- foldM (fun s rows => add_data_column (concat rows) (length rows) ndof s) data cnew ;;
  init f1 (match ow with Some w => set_weights w s | None => s end).
End Load.
