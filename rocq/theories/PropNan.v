(** * Property theorems C169: NaN transition costs.

    [fl K] is a cost that may be NaN.  The graph searches never use a NaN
    transition; the dynamic program always returns one if there is any. *)
From Coq Require Import List Arith ZArith Lia Bool.
From Verif Require Import PyBase Cost SpecPath GraphCommon PyGraph CppGraph CppGraphProofs Dp Nan NanProofs.
Import ListNotations.
Local Open Scope nat_scope.

(** pygraph.get_shortest_path: the path has no NaN step and is optimal among
    those without; it fails only if all of those have an infinite cost. *)
Theorem C169_pygraph_avoids_nan :
  forall (K : CostStruct) (D : Type) (cost : D -> D -> res (fl K)) (ct : D -> D -> fl K) (data : list (list D)),
  data <> [] -> (forall x y, adjacent data x y -> cost x y = Ok (ct x y)) ->
  (exists path c, fget_shortest_path cost data = Ok (SpOk path c) /\ (exists js, picks data js path) /\
     nan_free ct path /\ c = walk_cost (fun x y => as_inf (ct x y)) path /\
     forall js p, picks data js p -> nan_free ct p -> cle c (walk_cost (fun x y => as_inf (ct x y)) p)) \/
  (fget_shortest_path cost data = Ok SpFail /\
     forall js p, picks data js p -> nan_free ct p -> clt (walk_cost (fun x y => as_inf (ct x y)) p) cinf = false).
Proof. exact nan_py. Qed.
Print Assumptions C169_pygraph_avoids_nan.

(** run_bfs of graph.cpp, for an accumulation that keeps infinity. *)
Theorem C169_cpp_bfs_avoids_nan :
  forall (K : CostStruct) (F : Type) (f1 : F) (fsq : K -> F -> F -> F -> fl K) n data ow (s : cgraph K F),
  (forall acc w a b, clt acc cinf = false -> clt (as_inf (fsq acc w a b)) cinf = false) ->
  uniform n data -> load f1 n data ow = Ok s ->
  (exists s' c js p, frun_bfs fsq s = Ok (s', Num c) /\ get_path (length data) s' = Ok (Some (map Z.of_nat js)) /\
     picks data js p /\ nan_free (fjcost fsq (eff_weights f1 n ow)) p /\
     c = walk_cost (fun x y => as_inf (fjcost fsq (eff_weights f1 n ow) x y)) p /\
     forall js' p', picks data js' p' -> nan_free (fjcost fsq (eff_weights f1 n ow)) p' ->
       cle c (walk_cost (fun x y => as_inf (fjcost fsq (eff_weights f1 n ow) x y)) p')) \/
  (frun_bfs fsq s = Raise NullDeref /\
     forall js p, picks data js p -> nan_free (fjcost fsq (eff_weights f1 n ow)) p ->
       clt (walk_cost (fun x y => as_inf (fjcost fsq (eff_weights f1 n ow) x y)) p) cinf = false).
Proof. exact nan_cpp_bfs. Qed.
Print Assumptions C169_cpp_bfs_avoids_nan.

(** run_dijkstra: the same path as when every NaN is replaced by infinity. *)
Theorem C169_cpp_dijkstra_reads_nan_as_infinite :
  forall (K : CostStruct) (F : Type) (fsq : K -> F -> F -> F -> fl K) (pq : pqueue K F) (s : cgraph K F),
  (forall acc w a b, clt acc cinf = false -> clt (as_inf (fsq acc w a b)) cinf = false) ->
  (forall s' c, frun_dijkstra fsq pq s = Ok (s', c) ->
     exists s'', run_dijkstra (fun acc w a b => as_inf (fsq acc w a b)) pq s = Ok s'' /\
       (forall m, get_path m s'' = get_path m s') /\
       (c = Num (get_path_cost s'') \/ c = NaN /\ clt (get_path_cost s'') cinf = false)) /\
  (forall e, frun_dijkstra fsq pq s = Raise e ->
     run_dijkstra (fun acc w a b => as_inf (fsq acc w a b)) pq s = Raise e) /\
  (frun_dijkstra fsq pq s = OutOfFuel -> run_dijkstra (fun acc w a b => as_inf (fsq acc w a b)) pq s = OutOfFuel).
Proof. exact nan_cpp_dij. Qed.
Print Assumptions C169_cpp_dijkstra_reads_nan_as_infinite.

(** dp.shortest_path: with a NaN anywhere in the cost matrices the length is
    NaN and the returned path crosses a NaN transition, whatever else is there. *)
Theorem C169_dp_returns_nan :
  forall (K : CostStruct) (D : Type) (Q : list (list D)) (f : list D -> list D -> fmatrix K),
  2 <= length Q -> Forall (fun stage => stage <> []) Q ->
  (forall d1 d2, In d1 Q -> In d2 Q ->
     f_cols (f d1 d2) = length d2 /\ has_dims (f_rows (f d1 d2)) (length d1) (length d2)) ->
  exists path len js, fshortest_path Q f = Ok (path, len) /\ picks Q js path /\
    (some_nan f Q -> nan_step f Q js) /\ (len = NaN <-> some_nan f Q).
Proof. exact @nan_dp. Qed.
Print Assumptions C169_dp_returns_nan.

(** Without NaN the model is the one of C01-C05. *)
Theorem C169_dp_without_nan :
  forall (K : CostStruct) (D : Type) (Q : list (list D)) (f : list D -> list D -> matrix K),
  fshortest_path Q (fun a b => of_matrix (f a b)) =
  match shortest_path Q f with
  | Ok r => Ok (dp_path _ r, Num (dp_length _ r))
  | Raise e => Raise e
  | OutOfFuel => OutOfFuel
  end.
Proof. exact @nan_dp_num. Qed.
Print Assumptions C169_dp_without_nan.

(** Both on the same data: the dynamic program returns 1-3-4 with NaN, the
    graph search 0-2-4 with cost 2. *)
Example C169_hypotheses_met :
  (2 <= length nan_ex_Q /\ Forall (fun stage => stage <> []) nan_ex_Q /\ fshaped nan_ex_Q nan_ex_f) /\
  some_nan nan_ex_f nan_ex_Q /\
  fshortest_path nan_ex_Q nan_ex_f = Ok ([1; 3; 4], NaN) /\
  fget_shortest_path (fun x y => Ok (nan_ex_cost x y)) nan_ex_Q = Ok (@SpOk ZCost nat [0; 2; 4] (Some 2%Z)).
Proof. exact nan_ex_ok. Qed.

(** NaN joint values in C++: the path avoids them. *)
Example C169_cpp_hypotheses_met :
  (forall acc w a b, clt acc cinf = false -> clt (as_inf (nan_ex_sq acc w a b)) cinf = false) /\
  uniform 1 nan_ex_cols /\
  exists s s', load (Some 1%Z) 1 nan_ex_cols None = Ok s /\ frun_bfs nan_ex_sq s = Ok (s', @Num ZCost (Some 9%Z)) /\
    get_path 2 s' = Ok (Some [0; 0]%Z).
Proof. exact nan_ex_cpp. Qed.
