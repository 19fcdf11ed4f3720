(** * graph.cpp with addresses: node and joint vectors live in blocks of memory.

    [CppGraph] takes a pointer to a node for its position in the node array.  Here a
    pointer is an address: the number of a block and an offset.  A block is the storage
    of one std::vector; push_back on a full vector moves the elements to a new block
    twice as large and frees the old one (libstdc++ vector.tcc, _M_realloc_insert).  A freed block
    is empty, so that reading through an address that is out of date is OutOfBounds.  The
    outer vectors gd and na move their elements when they grow, which keeps the blocks.
    Every read of the searches, also inside the priority queue, is checked.

    Simplifications as in [CppGraph], except for the addresses.  An empty vector has an
    empty block; blocks are never given out twice.  Printed nodes are lists of the printed
    values. *)
From Coq Require Import List Arith ZArith Lia Bool.
From Verif Require Import PyBase Cost GraphCommon CppGraph.
Import ListNotations.

Section Mem.
Context {K : CostStruct} {F : Type}.
Context (f1 : F) (sq_acc : K -> F -> F -> F -> K).
Local Notation jv := (list F).
(** graph.h:29-37 struct Node with addresses for jv and parent *)
Local Notation mnode := (node K ref).
Local Notation mheap := (narr K ref).

(** graph.h:58-68; [m_rows]: the blocks of joint values, [m_gd]: the blocks of the
    columns of gd, [m_heap]: the blocks of nodes, [m_na]: block and capacity of each
    column of na *)
Record mgraph : Type := mkMG {
  m_rows : list (list jv); m_gd : list nat; m_heap : mheap; m_na : list (nat * nat); m_found : bool; m_cost : K;
  m_goals : nat; m_max : nat; m_w : list F }.
Definition mnew : mgraph := mkMG [] [] [] [] false cinf 0 0 [].

(** graph.cpp:271-286 add_data_column: the copy made by gd.push_back is a new block *)
Definition m_add (mat : list F) (nrows ncols : nat) (s : mgraph) : res mgraph :=
  new_col <- mapM (mat_row mat ncols) (seq 0 nrows) ;;
  Ok (mkMG (m_rows s ++ [new_col]) (m_gd s ++ [length (m_rows s)]) (m_heap s) (m_na s) (m_found s) (m_cost s) (m_goals s) (m_max s) (m_w s)).
(** graph.cpp:315-322 set_weights *)
Definition m_set_weights (w : list F) (s : mgraph) : mgraph :=
  mkMG (m_rows s) (m_gd s) (m_heap s) (m_na s) (m_found s) (m_cost s) (m_goals s) (m_max s) w.

(** std::vector<Node>::push_back *)
Definition vpush (h : mheap) (v : nat * nat) (n : mnode) : mheap * (nat * nat) :=
  let col := nth (fst v) h [] in
  if Nat.ltb (length col) (snd v) then (upd h (fst v) (col ++ [n]), v)
  else (upd h (fst v) [] ++ [col ++ [n]], (length h, length col + Nat.max (length col) 1)).
(** graph.cpp:134-138: the nodes of one column of data *)
Fixpoint m_fill (i gb j n : nat) (h : mheap) (v : nat * nat) : mheap * (nat * nat) :=
  match n with
  | O => (h, v)
  | S n' => let '(h', v') := vpush h v (mkNode i j (gb, j) cinf PDummy false) in m_fill i gb (S j) n' h' v'
  end.
(** graph.cpp:128-140 graph_data_to_node_array *)
Fixpoint m_to_node_array (rows : list (list jv)) (i : nat) (data : list nat) (h : mheap) (na : list (nat * nat)) : mheap * list (nat * nat) :=
  match data with
  | [] => (h, na)
  | gb :: data' =>
      let na1 := na ++ [(length h, 0)] in
      let '(h2, v) := m_fill i gb 0 (length (nth gb rows [])) (h ++ [[]]) (nth i na1 (0, 0)) in
      m_to_node_array rows (S i) data' h2 (upd na1 i v)
  end.
Definition block_len (h : mheap) (v : nat * nat) : nat := length (nth (fst v) h []).
(** graph.cpp:288-313 init *)
Definition m_init (s : mgraph) : res mgraph :=
  let '(h, a) := m_to_node_array (m_rows s) 0 (m_gd s) (m_heap s) (m_na s) in
  match a with
  | [] => Raise OutOfBounds
  | _ :: _ =>
      match m_gd s with
      | gb :: _ =>
          match nth gb (m_rows s) [] with
          | row :: _ =>
              let ndof := length row in
              let w := if Nat.eqb (length (m_w s)) ndof then m_w s else repeat f1 ndof in
              Ok (mkMG (m_rows s) (m_gd s) h a false (m_cost s) (block_len h (nth (length a - 1) a (0, 0))) (length a - 1) w)
          | [] => Raise OutOfBounds
          end
      | [] => Raise OutOfBounds
      end
  end.
(** graph.cpp:142-153, 324-329 reset *)
Definition m_clear (h : mheap) (na : list (nat * nat)) : mheap :=
  fold_left (fun h v => upd h (fst v) (map (fun n => mkNode (n_pi n) (n_si n) (n_data n) cinf PDummy false) (nth (fst v) h []))) na h.
Definition m_reset (s : mgraph) : res mgraph :=
  let a := m_na s in
  let h := m_clear (m_heap s) a in
  match a with
  | [] => Raise OutOfBounds
  | _ :: _ => Ok (mkMG (m_rows s) (m_gd s) h a (m_found s) (m_cost s) (block_len h (nth (length a - 1) a (0, 0))) (length a - 1) (m_w s))
  end.

(** graph.cpp:203-219 get_neighbors: addresses of the next column *)
Definition m_neighbors (h : mheap) (na : list (nat * nat)) (n : mnode) : res (list ref) :=
  if Nat.eqb (n_pi n) (length na - 1) then Ok []
  else match nth_error na (n_pi n + 1) with
       | Some v => Ok (col_refs h (fst v))
       | None => Raise OutOfBounds
       end.
(** *node.jv *)
Definition jderef (rows : list (list jv)) (p : ref) : res jv :=
  match nth_error rows (fst p) with
  | Some col => match nth_error col (snd p) with Some x => Ok x | None => Raise OutOfBounds end
  | None => Raise OutOfBounds
  end.
(** graph.cpp:178-186 cost_function_2(n1, n2) *)
Definition m_cost2 (rows : list (list jv)) (w : list F) (p1 p2 : ref) : res K :=
  x <- jderef rows p1 ;; y <- jderef rows p2 ;; cost2 sq_acc w x y.
(** graph.cpp:47-63 and 103-119: one neighbour; here the queue insertion may fail *)
Definition m_relax (rows : list (list jv)) (w : list F) (push : mheap -> list ref -> ref -> res (list ref))
  (cur : ref) (st : mheap * list ref) (nb : ref) : res (mheap * list ref) :=
  let '(h, q) := st in
  ncur <- deref h cur ;;
  nnb <- deref h nb ;;
  c <- m_cost2 rows w (n_data nnb) (n_data ncur) ;;
  let new_dist := cadd (n_dist ncur) c in
  let nnb1 := if clt new_dist (n_dist nnb)
              then set_label nnb new_dist (PNode (fst cur) (snd cur)) else nnb in
  let h1 := write h nb nnb1 in
  if n_visited nnb1 then Ok (h1, q)
  else q' <- push h1 q nb ;; Ok (write h1 nb (set_visited nnb1), q').
Definition m_expand rows w push (na : list (nat * nat)) (h : mheap) (q : list ref) (cur : ref) : res (mheap * list ref) :=
  ncur <- deref h cur ;;
  nb <- m_neighbors h na ncur ;;
  foldM (m_relax rows w push cur) nb (h, q).
Definition m_fifo (h : mheap) (q : list ref) (r : ref) : res (list ref) := Ok (q ++ [r]).
Definition m_count (h : mheap) (na : list (nat * nat)) : nat := fold_right (fun v n => block_len h v + n) 0 na.
(** graph.cpp:21-67 multi_source_bfs *)
Definition m_bfs rows w (h : mheap) (na : list (nat * nat)) : res mheap :=
  match na with
  | [] => Raise OutOfBounds
  | v :: _ =>
      let h0 := start_column h (fst v) in
      bfs_loop (m_expand rows w m_fifo na) (m_count h0 na) h0 (col_refs h0 (fst v))
  end.

(** ** std::priority_queue, with checked accesses *)
Definition hget (q : list ref) (i : nat) : res ref := match nth_error q i with Some r => Ok r | None => Raise OutOfBounds end.
Definition dist_at (h : mheap) (q : list ref) (i : nat) : res K := r <- hget q i ;; n <- deref h r ;; Ok (n_dist n).
Definition hswap (q : list ref) (i j : nat) : res (list ref) := x <- hget q i ;; y <- hget q j ;; Ok (upd (upd q i y) j x).
(** __push_heap *)
Fixpoint m_up (fuel : nat) (h : mheap) (q : list ref) (hole : nat) : res (list ref) :=
  match fuel with
  | O => OutOfFuel
  | S fuel' =>
      if Nat.ltb 0 hole then
        let parent := (hole - 1) / 2 in
        d <- dist_at h q hole ;; dp <- dist_at h q parent ;;
        if clt d dp then q' <- hswap q hole parent ;; m_up fuel' h q' parent else Ok q
      else Ok q
  end.
(** __adjust_heap *)
Fixpoint m_down (fuel : nat) (h : mheap) (q : list ref) (hole : nat) : res (list ref * nat) :=
  match fuel with
  | O => OutOfFuel
  | S fuel' =>
      let len := length q in
      if Nat.ltb hole ((len - 1) / 2) then
        let c := 2 * (hole + 1) in
        d1 <- dist_at h q (c - 1) ;; d <- dist_at h q c ;;
        let c := if clt d1 d then c - 1 else c in
        q' <- hswap q hole c ;; m_down fuel' h q' c
      else if Nat.even len && Nat.eqb hole ((len - 2) / 2) && Nat.ltb 1 len then
        let c := 2 * (hole + 1) - 1 in q' <- hswap q hole c ;; Ok (q', c)
      else Ok (q, hole)
  end.
Definition m_push (h : mheap) (q : list ref) (r : ref) : res (list ref) := m_up (S (length q)) h (q ++ [r]) (length q).
Definition m_pop (h : mheap) (q : list ref) : res (option (ref * list ref)) :=
  match q with
  | [] => Ok None
  | top :: rest =>
      match rev rest with
      | [] => Ok (Some (top, []))
      | last :: _ =>
          let q1 := last :: removelast rest in
          '(q2, hole) <- m_down (length q1) h q1 0 ;;
          q3 <- m_up (length q1) h q2 hole ;;
          Ok (Some (top, q3))
      end
  end.
(** graph.cpp:90-120 *)
Fixpoint m_dij_loop rows w (na : list (nat * nat)) (maxp : nat) (fuel : nat) (h : mheap) (q : list ref) (goals : nat) : res (mheap * nat) :=
  match goals with
  | O => Ok (h, goals)
  | S g' =>
      r <- m_pop h q ;;
      match r with
      | None => Ok (h, goals)
      | Some (cur, q') =>
          match fuel with
          | O => OutOfFuel
          | S fuel' =>
              ncur <- deref h cur ;;
              let goals' := if Nat.eqb (n_pi ncur) maxp then g' else goals in
              '(h', q'') <- m_expand rows w m_push na h q' cur ;;
              m_dij_loop rows w na maxp fuel' h' q'' goals'
          end
      end
  end.
(** graph.cpp:69-123 multi_source_dijkstra *)
Definition m_dijkstra rows w maxp goals (h : mheap) (na : list (nat * nat)) : res (mheap * nat) :=
  match na with
  | [] => Raise OutOfBounds
  | v :: _ =>
      let h0 := start_column h (fst v) in
      q0 <- foldM (fun q r => m_push h0 q r) (col_refs h0 (fst v)) [] ;;
      m_dij_loop rows w na maxp (m_count h0 na) h0 q0 goals
  end.

(** ** The path *)
(** graph.cpp:228-237 *)
Fixpoint m_best_goal (b j : nat) (col : list mnode) (min_dist : K) (goal : parent) : parent :=
  match col with
  | [] => goal
  | n :: col' =>
      if clt (n_dist n) min_dist then m_best_goal b (S j) col' (n_dist n) (PNode b j)
      else m_best_goal b (S j) col' min_dist goal
  end.
(** graph.cpp:239-246 *)
Fixpoint m_follow (fuel : nat) (h : mheap) (p : parent) (acc : list parent) : res (list parent) :=
  match p with
  | PNone => Raise NullDeref
  | PDummy => Ok (p :: acc)
  | PNode i j =>
      match fuel with
      | O => OutOfFuel
      | S fuel' =>
          n <- deref h (i, j) ;;
          if Nat.ltb 0 (n_pi n) then m_follow fuel' h (n_parent n) (p :: acc) else Ok (p :: acc)
      end
  end.
(** graph.cpp:221-254 get_path_nodes *)
Definition m_path_nodes (found : bool) (h : mheap) (na : list (nat * nat)) : res (list parent) :=
  if found then
    match na with
    | [] => Raise OutOfBounds
    | _ :: _ =>
        let b := fst (nth (length na - 1) na (0, 0)) in
        m_follow (S (m_count h na)) h (m_best_goal b 0 (nth b h []) cinf PNone) []
    end
  else Ok [].
Definition m_pt_data (rows : list (list jv)) (h : mheap) (p : parent) : res jv :=
  match p with
  | PNode i j => n <- deref h (i, j) ;; jderef rows (n_data n)
  | _ => Raise NullDeref
  end.
Definition m_pt_index (h : mheap) (p : parent) : res nat :=
  match p with
  | PNode i j => n <- deref h (i, j) ;; Ok (n_si n)
  | PDummy => Ok 0
  | PNone => Raise NullDeref
  end.
(** graph.cpp:256-264 *)
Fixpoint m_path_cost_loop rows (w : list F) (h : mheap) (prev : parent) (rest : list parent) (acc : K) : res K :=
  match rest with
  | [] => Ok acc
  | p :: rest' =>
      x <- m_pt_data rows h p ;;
      y <- m_pt_data rows h prev ;;
      c <- cost2 sq_acc w x y ;;
      m_path_cost_loop rows w h p rest' (cadd acc c)
  end.
Definition m_path_cost rows (w : list F) (h : mheap) (path : list parent) : res K :=
  match path with
  | [] => Ok czero
  | p :: rest => m_path_cost_loop rows w h p rest czero
  end.
(** graph.cpp:331-348 run_bfs, run_dijkstra *)
Definition m_run_bfs (s : mgraph) : res mgraph :=
  h <- m_bfs (m_rows s) (m_w s) (m_heap s) (m_na s) ;;
  path <- m_path_nodes true h (m_na s) ;;
  c <- m_path_cost (m_rows s) (m_w s) h path ;;
  Ok (mkMG (m_rows s) (m_gd s) h (m_na s) true c (m_goals s) (m_max s) (m_w s)).
Definition m_run_dijkstra (s : mgraph) : res mgraph :=
  '(h, goals) <- m_dijkstra (m_rows s) (m_w s) (m_max s) (m_goals s) (m_heap s) (m_na s) ;;
  path <- m_path_nodes true h (m_na s) ;;
  c <- m_path_cost (m_rows s) (m_w s) h path ;;
  Ok (mkMG (m_rows s) (m_gd s) h (m_na s) true c goals (m_max s) (m_w s)).
(** graph.cpp:350-376 get_path *)
Definition m_get_path (n : nat) (s : mgraph) : res (option (list Z)) :=
  if m_found s then
    path <- m_path_nodes true (m_heap s) (m_na s) ;;
    if Nat.eqb n (length path) then
      idx <- mapM (m_pt_index (m_heap s)) path ;; Ok (Some (map Z.of_nat idx))
    else Ok None
  else Ok (Some (repeat (-1)%Z n)).

(** ** Printing *)
(** graph.cpp:387-396 print_node: index, distance, index of the parent.  DUMMY_NODE
    is a static object, so its indices are 0. *)
Definition shown : Type := (nat * nat * K * nat * nat)%type.
Definition m_print_node (h : mheap) (n : mnode) : res shown :=
  match n_parent n with
  | PNone => Raise NullDeref
  | PDummy => Ok (n_pi n, n_si n, n_dist n, 0, 0)
  | PNode i j => p <- deref h (i, j) ;; Ok (n_pi n, n_si n, n_dist n, n_pi p, n_si p)
  end.
(** graph.cpp:443-449 print_graph *)
Definition m_print_graph (s : mgraph) : res (list (list shown)) :=
  mapM (fun v => mapM (m_print_node (m_heap s)) (nth (fst v) (m_heap s) [])) (m_na s).
(** graph.cpp:436-441 print_path *)
Definition m_print_path (s : mgraph) : res (list shown) :=
  path <- m_path_nodes (m_found s) (m_heap s) (m_na s) ;;
  mapM (fun p => match p with PNode i j => n <- deref (m_heap s) (i, j) ;; m_print_node (m_heap s) n | _ => Raise NullDeref end) path.
(** graph.cpp:420-434 print_graph_data *)
Definition m_print_data (s : mgraph) : res (list (list jv)) :=
  mapM (fun b => match nth_error (m_rows s) b with Some col => Ok col | None => Raise OutOfBounds end) (m_gd s).
(** the same on positions instead of addresses *)
Definition print_node (a : narr K jv) (n : node K jv) : res shown :=
  match n_parent n with
  | PNone => Raise NullDeref
  | PDummy => Ok (n_pi n, n_si n, n_dist n, 0, 0)
  | PNode i j => p <- deref a (i, j) ;; Ok (n_pi n, n_si n, n_dist n, n_pi p, n_si p)
  end.
Definition print_graph (s : cgraph K F) : res (list (list shown)) := mapM (mapM (print_node (na s))) (na s).
Definition print_path (s : cgraph K F) : res (list shown) :=
  path <- get_path_nodes (path_found s) (na s) ;;
  mapM (fun p => match p with PNode i j => n <- deref (na s) (i, j) ;; print_node (na s) n | _ => Raise NullDeref end) path.

(** ** Sequences of calls *)
(** the public functions, graph.h:86-97; set_graph_data is not called and left out *)
Inductive call : Type :=
| CAdd (mat : list F) (nrows ncols : nat) | CWeights (w : list F) | CInit | CReset | CBfs | CDijkstra
| CPath (n : nat) | CCost | CPrint | CPrintPath | CPrintData.
Inductive answer : Type := ANone | APath (o : option (list Z)) | ACost (c : K) | APrint (l : list (list shown)) | AData (l : list (list jv)).
Definition quiet {S} (r : res S) : res (S * answer) := s <- r ;; Ok (s, ANone).
(** with positions *)
Definition pos_call (c : call) (s : cgraph K F) : res (cgraph K F * answer) :=
  match c with
  | CAdd mat r n => quiet (add_data_column mat r n s)
  | CWeights w => Ok (set_weights w s, ANone)
  | CInit => quiet (init f1 s)
  | CReset => quiet (creset s)
  | CBfs => quiet (run_bfs sq_acc s)
  | CDijkstra => quiet (run_dijkstra sq_acc stl_queue s)
  | CPath n => o <- get_path n s ;; Ok (s, APath o)
  | CCost => Ok (s, ACost (shortest_path_cost s))
  | CPrint => l <- print_graph s ;; Ok (s, APrint l)
  | CPrintPath => l <- print_path s ;; Ok (s, APrint [l])
  | CPrintData => Ok (s, AData (gd s))
  end.
(** with addresses *)
Definition mem_call (c : call) (s : mgraph) : res (mgraph * answer) :=
  match c with
  | CAdd mat r n => quiet (m_add mat r n s)
  | CWeights w => Ok (m_set_weights w s, ANone)
  | CInit => quiet (m_init s)
  | CReset => quiet (m_reset s)
  | CBfs => quiet (m_run_bfs s)
  | CDijkstra => quiet (m_run_dijkstra s)
  | CPath n => o <- m_get_path n s ;; Ok (s, APath o)
  | CCost => Ok (s, ACost (m_cost s))
  | CPrint => l <- m_print_graph s ;; Ok (s, APrint l)
  | CPrintPath => l <- m_print_path s ;; Ok (s, APrint [l])
  | CPrintData => l <- m_print_data s ;; Ok (s, AData l)
  end.
(** the answers of a program up to and including the first failure *)
Fixpoint answers {S} (step : call -> S -> res (S * answer)) (cs : list call) (s : S) : list (res answer) :=
  match cs with
  | [] => []
  | c :: cs' =>
      match step c s with
      | Ok (s', o) => Ok o :: answers step cs' s'
      | Raise e => [Raise e]
      | OutOfFuel => [OutOfFuel]
      end
  end.
(** the calls of planning.py:421-429: optional weights, one add_data_column per column, init *)
Definition load_calls (n : nat) (data : list (list jv)) (ow : option (list F)) : list call :=
  match ow with Some w => [CWeights w] | None => [] end ++ map (fun rows => CAdd (concat rows) (length rows) n) data ++ [CInit].
(** ... and planning.py:433-444 with method "bfs": search, print_path, get_path, get_path_cost *)
Definition plan_calls (n : nat) (data : list (list jv)) (ow : option (list F)) : list call :=
  load_calls n data ow ++ [CBfs; CPrintPath; CPath (length data); CCost].
End Mem.
Arguments mgraph : clear implicits.
Arguments call : clear implicits.
Arguments answer : clear implicits.
Arguments shown : clear implicits.
