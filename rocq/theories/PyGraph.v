(** * Model of acrobotics/pygraph.py.

    Simplifications: the cost function is a parameter returning a value or an
    exception (pygraph.py:20-21 uses arccos of a dot product, which raises for
    mismatched shapes); NaN costs are in [Nan] (C169); indices passed by the
    caller are non-negative; get_path's failure value [-1] is [None]. *)
From Coq Require Import List Arith Lia Bool.
From Verif Require Import PyBase Cost GraphCommon.
Import ListNotations.

Section PyGraph.
Context {K : CostStruct} {D : Type}.
Context (cost : D -> D -> res K).

(** pygraph.py:46-52 data_to_node_array *)
Fixpoint mk_col (i j : nat) (col : list D) : list (node K D) :=
  match col with
  | [] => []
  | x :: col' => mkNode i j x cinf PNone false :: mk_col i (S j) col'
  end.
Fixpoint mk_cols (i : nat) (data : list (list D)) : narr K D :=
  match data with
  | [] => []
  | col :: data' => mk_col i 0 col :: mk_cols (S i) data'
  end.
Definition data_to_node_array (data : list (list D)) : narr K D := mk_cols 0 data.

(** pygraph.py:39-44 class Graph *)
Record graph : Type := mkGraph { g_na : narr K D; g_path_length : nat; g_cost : K }.
Definition new_graph (data : list (list D)) : graph :=
  mkGraph (data_to_node_array data) (length data) cinf.

(** pygraph.py:54-60 reset *)
Definition reset_node (n : node K D) : node K D :=
  mkNode (n_pi n) (n_si n) (n_data n) cinf PNone false.
Definition reset (g : graph) : graph :=
  mkGraph (map (map reset_node) (g_na g)) (g_path_length g) cinf.

(** pygraph.py:62-67 get_neighbours *)
Definition get_neighbours (path_length : nat) (na : narr K D) (n : node K D) : res (list ref) :=
  let next := n_pi n + 1 in
  if Nat.leb path_length next then Ok []
  else match nth_error na next with
       | Some _ => Ok (col_refs na next)
       | None => Raise IndexError
       end.

(** pygraph.py:69-75 get_reachable_neighbours *)
Fixpoint reachable (na : narr K D) (max_cost : K) (n : node K D) (nb : list ref) : res (list ref) :=
  match nb with
  | [] => Ok []
  | r :: nb' =>
      next_node <- deref na r ;;
      c <- cost (n_data n) (n_data next_node) ;;
      rnb <- reachable na max_cost n nb' ;;
      Ok (if clt c max_cost then r :: rnb else rnb)
  end.

(** pygraph.py:149-162 the body of the search loop *)
Definition expand (path_length : nat) (max_cost : K) (na : narr K D) (q : list ref) (cur : ref)
  : res (narr K D * list ref) :=
  ncur <- deref na cur ;;
  nb <- get_neighbours path_length na ncur ;;
  rnb <- reachable na max_cost ncur nb ;;
  foldM (relax1 cost fifo_push cur) rnb (na, q).

(** pygraph.py:127-162 run_multi_source_bfs *)
Definition run_multi_source_bfs (max_cost : K) (start : nat) (g : graph) : res graph :=
  let g0 := reset g in
  match nth_error (g_na g0) start with
  | None => Raise IndexError
  | Some _ =>
      let na := start_column (g_na g0) start in
      na' <- bfs_loop (expand (g_path_length g0) max_cost) (count_nodes na) na (col_refs na start) ;;
      Ok (mkGraph na' (g_path_length g0) (g_cost g0))
  end.

(** pygraph.py:87-93 closest node of the target column *)
Fixpoint closest (i j : nat) (col : list (node K D)) (min_dist : K) (best : option ref)
  : K * option ref :=
  match col with
  | [] => (min_dist, best)
  | n :: col' =>
      if clt (n_dist n) min_dist then closest i (S j) col' (n_dist n) (Some (i, j))
      else closest i (S j) col' min_dist best
  end.

(** pygraph.py:99-105 follow the parents; the dummy node has parent None.
    The list is built in reverse of the append order, which is the final
    reverse() of line 105. *)
Fixpoint follow (fuel : nat) (na : narr K D) (p : parent) (acc : list nat) : res (list nat) :=
  match p with
  | PNone | PDummy => Ok acc     (* dummy.parent is None: loop ends *)
  | PNode i j =>
      match fuel with
      | O => OutOfFuel
      | S fuel' =>
          n <- deref na (i, j) ;;
          match n_parent n with
          | PNone => Ok acc      (* while current_node.parent is not None *)
          | p' => follow fuel' na p' (n_si n :: acc)
          end
      end
  end.

(** pygraph.py:77-106 get_path *)
Definition get_path (target : option nat) (g : graph) : res (graph * option (list nat)) :=
  let default : res nat :=
    match target with
    | Some t => Ok t
    | None => match g_path_length g with O => Raise IndexError | S m => Ok m end
    end in
  t <- default ;;
  match nth_error (g_na g) t with
  | None => Raise IndexError
  | Some col =>
      match closest t 0 col cinf None with
      | (_, None) => Ok (g, None)
      | (min_dist, Some (i, j)) =>
          l <- follow (S (count_nodes (g_na g))) (g_na g) (PNode i j) [] ;;
          Ok (mkGraph (g_na g) (g_path_length g) min_dist, Some l)
      end
  end.

(** pygraph.py:111-125 find_partial_path; [None] stands for -1 *)
Definition has_parent (n : node K D) : bool :=
  match n_parent n with PNone => false | _ => true end.
Fixpoint find_partial_loop (na : narr K D) (idx : nat) : res (option nat) :=
  match idx with
  | O => Ok None
  | S idx' =>
      match nth_error na idx with
      | None => Raise IndexError
      | Some col => if existsb has_parent col then Ok (Some idx) else find_partial_loop na idx'
      end
  end.
Definition find_partial_path (g : graph) : res (option nat) :=
  find_partial_loop (g_na g) (g_path_length g - 1).

(** pygraph.py:165-170 path_index_to_path: data[i][pi[i]] *)
Fixpoint path_index_to_path (pi : list nat) (data : list (list D)) : res (list D) :=
  match pi with
  | [] => Ok []
  | p :: pi' =>
      match data with
      | [] => Raise IndexError
      | col :: data' =>
          q <- py_index col p ;;
          rest <- path_index_to_path pi' data' ;;
          Ok (q :: rest)
      end
  end.

(** The result dictionaries. *)
Inductive sp_result : Type :=
| SpFail                                         (* {"success": False} *)
| SpOk (path : list D) (total_cost : K).         (* ... "single_path": True *)

(** pygraph.py:173-182 get_shortest_path *)
Definition get_shortest_path (data : list (list D)) : res sp_result :=
  g <- run_multi_source_bfs cinf 0 (new_graph data) ;;
  '(g, pi) <- get_path None g ;;
  match pi with
  | None => Ok SpFail
  | Some pi =>
      _ <- py_index pi 0 ;;                      (* pi[0] == -1 *)
      path <- path_index_to_path pi data ;;
      Ok (SpOk path (g_cost g))
  end.

Inductive pp_result : Type :=
| PpStuck                                        (* success False, info "Stuck ..." *)
| PpPartial (path : list D) (total_cost : K) (i : nat)
| PpOk (path : list D) (total_cost : K).

(** pygraph.py:185-205 get_shortest_partial_path.  When get_path fails for the
    split column, pi1 is [-1] and path_index_to_path picks the last sample of
    the first column (data[0][-1]). *)
Definition get_shortest_partial_path (data : list (list D)) (max_step_cost : K) : res pp_result :=
  g <- run_multi_source_bfs max_step_cost 0 (new_graph data) ;;
  '(g, pi) <- get_path None g ;;
  match pi with
  | None =>
      split <- find_partial_path g ;;
      match split with
      | None => Ok PpStuck
      | Some split_index =>
          '(g1, pi1) <- get_path (Some split_index) g ;;
          match pi1 with
          | Some pi1 =>
              path1 <- path_index_to_path pi1 data ;;
              Ok (PpPartial path1 (g_cost g1) split_index)
          | None =>
              x <- (col <- py_index data 0 ;; py_last col) ;;
              Ok (PpPartial [x] (g_cost g1) split_index)
          end
      end
  | Some pi =>
      _ <- py_index pi 0 ;;
      path <- path_index_to_path pi data ;;
      Ok (PpOk path (g_cost g))
  end.

(** Result of get_shortest_path_segments: success flag, first path and cost,
    split points and the further segments (absent when single). *)
Record seg_result : Type := {
  sg_success : bool; sg_path : list D; sg_cost : K;
  sg_single : option bool; sg_split_points : option (list nat);
  sg_extra : option (list (list D * K)) }.
Inductive segs_result : Type := SegStuck | SegSol (s : seg_result).

(** pygraph.py:216-233 the loop; returns None for the early return of "stuck" *)
Fixpoint segments_loop (fuel : nat) (data : list (list D)) (m : K)
  (current_data : list (list D)) (start : nat)
  (paths : list (list D)) (starts : list nat) (costs : list K)
  : res (option (bool * list (list D) * list nat * list K)) :=
  if Nat.ltb start (length data - 2) then
    match fuel with
    | O => OutOfFuel
    | S fuel' =>
        r <- get_shortest_partial_path current_data m ;;
        match r with
        | PpOk p c => Ok (Some (true, paths ++ [p], starts ++ [start], costs ++ [c]))
        | PpPartial p c i =>
            let start' := i + 1 in
            segments_loop fuel' data m (skipn start' data) start'
              (paths ++ [p]) (starts ++ [start']) (costs ++ [c])
        | PpStuck => Ok None
        end
    end
  else Ok (Some (false, paths, starts, costs)).

(** pygraph.py:208-259 get_shortest_path_segments.  [len(data) - 2] is negative
    for fewer than two columns, where the comparison is false as with 0. *)
Definition get_shortest_path_segments (fuel : nat) (data : list (list D)) (m : K) : res segs_result :=
  r <- segments_loop fuel data m data 0 [] [] [] ;;
  match r with
  | None => Ok SegStuck
  | Some (finished, paths, starts, costs) =>
      p0 <- py_index paths 0 ;;
      c0 <- py_index costs 0 ;;
      if finished then
        if Nat.eqb (length paths) 1 then
          Ok (SegSol {| sg_success := true; sg_path := p0; sg_cost := c0;
                        sg_single := Some true; sg_split_points := None; sg_extra := None |})
        else
          Ok (SegSol {| sg_success := true; sg_path := p0; sg_cost := c0;
                        sg_single := Some false; sg_split_points := Some starts;
                        sg_extra := Some (combine (tl paths) (tl costs)) |})
      else
        Ok (SegSol {| sg_success := false; sg_path := p0; sg_cost := c0;
                      sg_single := None; sg_split_points := Some starts; sg_extra := None |})
  end.
End PyGraph.
Arguments graph : clear implicits.
Arguments sp_result : clear implicits.
Arguments pp_result : clear implicits.
Arguments segs_result : clear implicits.
Arguments seg_result : clear implicits.
