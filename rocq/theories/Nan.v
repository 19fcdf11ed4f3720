(** * NaN costs in dp.py, pygraph.py and graph.cpp.

    [Dp], [PyGraph] and [CppGraph] leave out the floating-point value NaN.
    Here a cost is a number or NaN: a comparison with NaN is false and a sum
    with NaN is NaN (IEEE 754); np.min returns NaN and np.argmin the first NaN
    of an array that holds one (numpy).

    Simplification: the distance of a node stays a number, since the
    assignments pygraph.py:157-159 and graph.cpp:53-57, 108-112 are reached
    only when [new_dist < dist] holds, which is false for NaN. *)
From Coq Require Import List Arith ZArith Lia Bool.
From Verif Require Import PyBase Cost GraphCommon PyGraph CppGraph Dp.
Import ListNotations.

Inductive fl (K : CostStruct) : Type := Num (x : K) | NaN.
Arguments Num {K}. Arguments NaN {K}.

Section Ops.
Context {K : CostStruct}.
Definition flt (a b : fl K) : bool := match a, b with Num x, Num y => clt x y | _, _ => false end.
Definition fadd (a b : fl K) : fl K := match a, b with Num x, Num y => Num (cadd x y) | _, _ => NaN end.
End Ops.

(** ** pygraph.py *)
Section NanPy.
Context {K : CostStruct} {D : Type} (cost : D -> D -> res (fl K)).

(** pygraph.py:154-162 and graph.cpp:50-64, 105-119 *)
Definition frelax1 (push : narr K D -> list ref -> ref -> list ref)
  (cur : ref) (st : narr K D * list ref) (nb : ref) : res (narr K D * list ref) :=
  let '(na, q) := st in
  ncur <- deref na cur ;;
  nnb <- deref na nb ;;
  c <- cost (n_data ncur) (n_data nnb) ;;
  let nnb1 := match fadd (Num (n_dist ncur)) c with
              | Num new_dist => if clt new_dist (n_dist nnb)
                                then set_label nnb new_dist (PNode (fst cur) (snd cur)) else nnb
              | NaN => nnb                       (* NaN < dist is false *)
              end in
  let na1 := write na nb nnb1 in
  if n_visited nnb1 then Ok (na1, q)
  else Ok (write na1 nb (set_visited nnb1), push na1 q nb).

(** pygraph.py:69-75 get_reachable_neighbours *)
Fixpoint freachable (na : narr K D) (max_cost : K) (n : node K D) (nb : list ref) : res (list ref) :=
  match nb with
  | [] => Ok []
  | r :: nb' =>
      next_node <- deref na r ;;
      c <- cost (n_data n) (n_data next_node) ;;
      rnb <- freachable na max_cost n nb' ;;
      Ok (if flt c (Num max_cost) then r :: rnb else rnb)
  end.

(** pygraph.py:149-162 the body of the search loop *)
Definition fexpand (path_length : nat) (max_cost : K) (na : narr K D) (q : list ref) (cur : ref)
  : res (narr K D * list ref) :=
  ncur <- deref na cur ;;
  nb <- get_neighbours path_length na ncur ;;
  rnb <- freachable na max_cost ncur nb ;;
  foldM (frelax1 fifo_push cur) rnb (na, q).

(** pygraph.py:127-162 run_multi_source_bfs *)
Definition frun_multi_source_bfs (max_cost : K) (start : nat) (g : graph K D) : res (graph K D) :=
  let g0 := reset g in
  match nth_error (g_na g0) start with
  | None => Raise IndexError
  | Some _ =>
      let na := start_column (g_na g0) start in
      na' <- bfs_loop (fexpand (g_path_length g0) max_cost) (count_nodes na) na (col_refs na start) ;;
      Ok (mkGraph na' (g_path_length g0) (g_cost g0))
  end.

(** pygraph.py:173-182 get_shortest_path *)
Definition fget_shortest_path (data : list (list D)) : res (sp_result K D) :=
  g <- frun_multi_source_bfs cinf 0 (new_graph data) ;;
  '(g, pi) <- PyGraph.get_path None g ;;
  match pi with
  | None => Ok SpFail
  | Some pi =>
      _ <- py_index pi 0 ;;
      path <- path_index_to_path pi data ;;
      Ok (SpOk path (g_cost g))
  end.
End NanPy.

(** ** graph.cpp *)
Section NanCpp.
Context {K : CostStruct} {F : Type}.
(** [acc + w * pow(a - b, 2.0)] for an accumulator that is a number; the
    result is NaN when a joint value or weight is. *)
Context (fsq : K -> F -> F -> F -> fl K).

(** graph.cpp:178-186 cost_function_2; once NaN, the accumulator stays NaN *)
Fixpoint fcost2_loop (w n1 n2 : list F) (acc : fl K) : res (fl K) :=
  match n1 with
  | [] => Ok acc
  | x :: n1' =>
      match w, n2 with
      | wi :: w', y :: n2' =>
          fcost2_loop w' n1' n2' (match acc with Num a => fsq a wi x y | NaN => NaN end)
      | _, _ => Raise OutOfBounds
      end
  end.
Definition fcost2 (w : list F) (n1 n2 : list F) : res (fl K) := fcost2_loop w n1 n2 (Num czero).

(** graph.cpp:47-63 and 103-119 *)
Definition fcexpand (w : list F) (push : narr K (list F) -> list ref -> ref -> list ref)
  (a : narr K (list F)) (q : list ref) (cur : ref) : res (narr K (list F) * list ref) :=
  ncur <- deref a cur ;;
  nb <- get_neighbors a ncur ;;
  foldM (frelax1 (fun c n => fcost2 w n c) push cur) nb (a, q).

(** graph.cpp:21-67 multi_source_bfs *)
Definition fmulti_source_bfs (w : list F) (a : narr K (list F)) : res (narr K (list F)) :=
  match a with
  | [] => Raise OutOfBounds
  | _ :: _ =>
      let a0 := start_column a 0 in
      bfs_loop (fcexpand w fifo_push) (count_nodes a0) a0 (col_refs a0 0)
  end.

(** graph.cpp:90-120 the loop of multi_source_dijkstra *)
Fixpoint fdij_loop (pq : pqueue K F) (w : list F) (maxp : nat) (fuel : nat)
  (a : narr K (list F)) (q : list ref) (goals : nat) : res (narr K (list F) * nat) :=
  match goals with
  | O => Ok (a, goals)
  | S g' =>
      match pq_pop pq a q with
      | None => Ok (a, goals)
      | Some (cur, q') =>
          match fuel with
          | O => OutOfFuel
          | S fuel' =>
              ncur <- deref a cur ;;
              let goals' := if Nat.eqb (n_pi ncur) maxp then g' else goals in
              '(a', q'') <- fcexpand w (pq_push pq) a q' cur ;;
              fdij_loop pq w maxp fuel' a' q'' goals'
          end
      end
  end.

(** graph.cpp:69-123 multi_source_dijkstra *)
Definition fmulti_source_dijkstra (pq : pqueue K F) (w : list F) (maxp goals : nat) (a : narr K (list F))
  : res (narr K (list F) * nat) :=
  match a with
  | [] => Raise OutOfBounds
  | _ :: _ =>
      let a0 := start_column a 0 in
      let q0 := fold_left (fun q r => pq_push pq a0 q r) (col_refs a0 0) [] in
      fdij_loop pq w maxp (count_nodes a0) a0 q0 goals
  end.

(** graph.cpp:256-264 get_path_cost(path) *)
Fixpoint fpath_cost_loop (w : list F) (a : narr K (list F)) (prev : parent) (rest : list parent) (acc : fl K)
  : res (fl K) :=
  match rest with
  | [] => Ok acc
  | p :: rest' =>
      x <- pt_data a p ;;
      y <- pt_data a prev ;;
      c <- fcost2 w x y ;;
      fpath_cost_loop w a p rest' (fadd acc c)
  end.
Definition fpath_cost (w : list F) (a : narr K (list F)) (path : list parent) : res (fl K) :=
  match path with
  | [] => Ok (Num czero)
  | p :: rest => fpath_cost_loop w a p rest (Num czero)
  end.

(** graph.cpp:331-348 run_bfs and run_dijkstra; the member
    shortest_path_cost, which may be NaN here, is returned beside the object. *)
Definition frun_bfs (s : cgraph K F) : res (cgraph K F * fl K) :=
  a <- fmulti_source_bfs (weights s) (na s) ;;
  path <- get_path_nodes true a ;;
  c <- fpath_cost (weights s) a path ;;
  Ok (mkCG (gd s) a true (shortest_path_cost s) (num_goals s) (max_path_index s) (weights s), c).
Definition frun_dijkstra (pq : pqueue K F) (s : cgraph K F) : res (cgraph K F * fl K) :=
  '(a, goals) <- fmulti_source_dijkstra pq (weights s) (max_path_index s) (num_goals s) (na s) ;;
  path <- get_path_nodes true a ;;
  c <- fpath_cost (weights s) a path ;;
  Ok (mkCG (gd s) a true (shortest_path_cost s) goals (max_path_index s) (weights s), c).
End NanCpp.

(** ** dp.py *)
Section NanDp.
Context {K : CostStruct}.

(** A 2D numpy array, as [Dp.matrix] *)
Record fmatrix : Type := { f_cols : nat; f_rows : list (list (fl K)) }.

(** np.min of a 1D array *)
Definition fmin (m y : fl K) : fl K :=
  match m, y with
  | NaN, _ => NaN
  | _, NaN => NaN
  | Num a, Num b => if clt b a then y else m
  end.
Definition fmin_list (l : list (fl K)) : res (fl K) :=
  match l with [] => Raise ValueError | x :: xs => Ok (fold_left fmin xs x) end.

(** np.argmin of a 1D array *)
Fixpoint fargmin_from (best : nat) (m : fl K) (i : nat) (l : list (fl K)) : nat :=
  match m with
  | NaN => best
  | Num a =>
      match l with
      | [] => best
      | NaN :: _ => i
      | Num b :: ys => if clt b a then fargmin_from i (Num b) (S i) ys else fargmin_from best m (S i) ys
      end
  end.
Definition fargmin (l : list (fl K)) : res nat :=
  match l with [] => Raise ValueError | x :: xs => Ok (fargmin_from 0 x 1 xs) end.

(** numpy broadcasting of [row + v] *)
Fixpoint fzip_add (a b : list (fl K)) : list (fl K) :=
  match a, b with x :: a', y :: b' => fadd x y :: fzip_add a' b' | _, _ => [] end.
Definition frow_add (row v : list (fl K)) : res (list (fl K)) :=
  if Nat.eqb (length row) (length v) then Ok (fzip_add row v)
  else match row, v with
       | _, [y] => Ok (map (fun x => fadd x y) row)
       | [x], _ => Ok (map (fun y => fadd x y) v)
       | _, _ => Raise ValueError
       end.

(** dp.py:4-9 apply_cost_function *)
Fixpoint fapply_cost_function {D} (data : list (list D)) (f : list D -> list D -> fmatrix) : list fmatrix :=
  match data with
  | d1 :: ((d2 :: _) as rest) => f d1 d2 :: fapply_cost_function rest f
  | _ => []
  end.

(** dp.py:20-23, one turn of the loop *)
Definition fbellman_step (c : fmatrix) (v_next : list (fl K)) : res (list nat * list (fl K)) :=
  rhs <- mapM (fun row => frow_add row v_next) (f_rows c) ;;
  (if Nat.eqb (f_cols c) 0 then Raise ValueError else
   v <- mapM fmin_list rhs ;;
   vi <- mapM fargmin rhs ;;
   Ok (vi, v)).

(** dp.py:17-23 *)
Fixpoint fbellman_loop (tcs : list fmatrix) (d_last : nat) : res (list (list nat) * list (list (fl K))) :=
  match tcs with
  | [] => Ok ([repeat 0 d_last], [repeat (Num czero) d_last])
  | c :: rest =>
      '(vis, vs) <- fbellman_loop rest d_last ;;
      match vs with
      | [] => Raise IndexError
      | v_next :: _ => '(vi, v) <- fbellman_step c v_next ;; Ok (vi :: vis, v :: vs)
      end
  end.

(** dp.py:12-25 calculate_value_function *)
Definition fcalculate_value_function (tcs : list fmatrix) : res (list (list nat) * list (list (fl K))) :=
  last <- py_last tcs ;;
  fbellman_loop tcs (f_cols last).

(** dp.py:28-39 extract_shortest_path *)
Definition fextract_shortest_path {D} (data : list (list D)) (v_ind : list (list nat))
  (v : list (list (fl K))) : res (list D) :=
  v0 <- py_index v 0 ;;
  i_start <- fargmin v0 ;;
  extract_loop data v_ind i_start.

(** dp.py:42-48 shortest_path: the path and the length ("success" is always True) *)
Definition fshortest_path {D} (Q : list (list D)) (cost_function : list D -> list D -> fmatrix)
  : res (list D * fl K) :=
  let costs := fapply_cost_function Q cost_function in
  '(actions, values) <- fcalculate_value_function costs ;;
  path <- fextract_shortest_path Q actions values ;;
  v0 <- py_index values 0 ;;
  len <- fmin_list v0 ;;
  Ok (path, len).
End NanDp.
Arguments fmatrix : clear implicits.

(** ** Specification vocabulary *)
Section NanSpec.
Context {K : CostStruct}.

(** A NaN cost read as the infinite cost. *)
Definition as_inf (c : fl K) : K := match c with Num x => x | NaN => cinf end.

(** The cost of a C++ transition, NaN when out of bounds (never for equal lengths). *)
Definition fjcost {F} (fsq : K -> F -> F -> F -> fl K) (w x y : list F) : fl K :=
  match fcost2 fsq w y x with Ok c => c | _ => NaN end.

(** A numeric matrix as one that may hold NaN. *)
Definition of_matrix (m : matrix K) : fmatrix K := {| f_cols := m_cols m; f_rows := map (map Num) (m_rows m) |}.

(** Entry (i, j). *)
Definition fentry (m : list (list (fl K))) (i j : nat) : fl K := nth j (nth i m []) (Num czero).

(** The index sequence crosses a NaN transition. *)
Fixpoint nan_step {D} (f : list D -> list D -> fmatrix K) (Q : list (list D)) (js : list nat) : Prop :=
  match Q, js with
  | d1 :: ((d2 :: _) as Q'), j :: ((j' :: _) as js') =>
      fentry (f_rows (f d1 d2)) j j' = NaN \/ nan_step f Q' js'
  | _, _ => False
  end.

(** Some transition costs NaN. *)
Fixpoint some_nan {D} (f : list D -> list D -> fmatrix K) (Q : list (list D)) : Prop :=
  match Q with
  | d1 :: ((d2 :: _) as Q') =>
      (exists i j, i < length d1 /\ j < length d2 /\ fentry (f_rows (f d1 d2)) i j = NaN) \/ some_nan f Q'
  | _ => False
  end.

(** No step of a path of samples costs NaN. *)
Fixpoint nan_free {D} (ct : D -> D -> fl K) (p : list D) : Prop :=
  match p with
  | x :: ((y :: _) as p') => ct x y <> NaN /\ nan_free ct p'
  | _ => True
  end.
End NanSpec.
