(** * Property theorems C25-C36: planning.py.

    [arrays t n data] is a list Q of numpy arrays of dtype t with n columns,
    [seen to32 t data] the rows after the conversion to float32. *)
From Coq Require Import String List Arith ZArith Lia Bool Reals Lra.
From Verif Require Import PyBase Cost SpecPath GraphCommon CppGraph CppGraphProofs CppSearch CppHeap CppMain CppExamples Planning PlanningProofs PlanningCart PlanningIter PlanningToy.
Import ListNotations.
Local Open Scope nat_scope.

(** C25: method bfs returns an optimal choice of rows and its cost; it crashes
    exactly when no choice of rows has a finite cost. *)
Theorem C25_shortest_path_bfs :
  forall (K : CostStruct) (F : Type) (f1 : F) (sq_acc : K -> F -> F -> F -> K) (pq : pqueue K F) (to32 : F -> F)
    (t : dtype) n data ow,
  uniform n data -> data <> [] -> Forall (fun col => col <> []) data ->
  let cost := walk_cost (jcost sq_acc (eff_weights f1 n ow)) in
  (get_shortest_path f1 sq_acc pq to32 (arrays t n data) "bfs" ow = Raise NullDeref /\
     forall js p, picks (seen to32 t data) js p -> clt (cost p) cinf = false) \/
  (exists js p, get_shortest_path f1 sq_acc pq to32 (arrays t n data) "bfs" ow = Ok (GspOk p (cost p)) /\
     picks (seen to32 t data) js p /\ clt (cost p) cinf = true /\
     forall js' p', picks (seen to32 t data) js' p' -> cle (cost p) (cost p')).
Proof. exact @gsp_bfs_spec. Qed.
Print Assumptions C25_shortest_path_bfs.

(** C25: method dijkstra, for every queue that loses and adds nothing. *)
Theorem C25_shortest_path_dijkstra :
  forall (K : CostStruct) (F : Type) (f1 : F) (sq_acc : K -> F -> F -> F -> K) (pq : pqueue K F) (to32 : F -> F)
    (t : dtype) n data ow,
  uniform n data -> data <> [] -> Forall (fun col => col <> []) data -> pq_ok pq ->
  let cost := walk_cost (jcost sq_acc (eff_weights f1 n ow)) in
  (forall js p, picks (seen to32 t data) js p -> clt (cost p) cinf = true) ->
  exists js p, get_shortest_path f1 sq_acc pq to32 (arrays t n data) "dijkstra" ow = Ok (GspOk p (cost p)) /\
    picks (seen to32 t data) js p.
Proof. exact @gsp_dij_spec. Qed.
Print Assumptions C25_shortest_path_dijkstra.

(** C25: without any assumption on Q, method or queue: one row per entry, and
    each is a row of its entry. *)
Theorem C25_shortest_path_rows :
  forall (K : CostStruct) (F : Type) (f1 : F) (sq_acc : K -> F -> F -> F -> K) (pq : pqueue K F) (to32 : F -> F)
    Q method ow path c,
  get_shortest_path f1 sq_acc pq to32 Q method ow = Ok (GspOk path c) ->
  exists Q', check_dtype to32 Q = Ok Q' /\ Forall2 row_of Q' path.
Proof. exact @gsp_rows. Qed.
Print Assumptions C25_shortest_path_rows.

Example C25_case :
  get_shortest_path (K := ZCost) 1%Z zsq stl_queue (fun z => z) (arrays F64 1 [[[5]; [0]]; [[9]; [1]]; [[2]]]%Z) "dijkstra" None =
  Ok (GspOk (K := ZCost) [[0]; [1]; [2]]%Z (Some 2%Z)).
Proof. vm_compute. reflexivity. Qed.

(** C26: false when the empty entry comes first (numpy conversion test reads
    the attribute dtype of an empty python list). *)
Theorem C26_empty_entry_refuted :
  exists (Q : list (qent Z)), In QNil Q /\
  forall (pq : pqueue ZCost Z) ow, get_shortest_path 1%Z zsq pq (fun z => z) Q "dijkstra" ow = Raise AttributeError.
Proof. exact first_empty_refuted. Qed.
Print Assumptions C26_empty_entry_refuted.

(** C26: when the first entry is a float32 array, one empty entry anywhere gives success False. *)
Theorem C26_empty_entry_partial :
  forall (K : CostStruct) (F : Type) (f1 : F) (sq_acc : K -> F -> F -> F -> K) (pq : pqueue K F) (to32 : F -> F)
    nc rows Q method ow,
  Forall wf_entry (QArr F32 nc rows :: Q) -> Exists (fun e => qlen e = 0) (QArr F32 nc rows :: Q) ->
  get_shortest_path f1 sq_acc pq to32 (QArr F32 nc rows :: Q) method ow = Ok GspFail.
Proof. exact @gsp_empty. Qed.
Print Assumptions C26_empty_entry_partial.

(** C26: the two ways it goes wrong, for every Q. *)
Theorem C26_empty_first_entry_raises :
  forall (K : CostStruct) (F : Type) (f1 : F) (sq_acc : K -> F -> F -> F -> K) (pq : pqueue K F) (to32 : F -> F) Q method ow,
  get_shortest_path f1 sq_acc pq to32 (QNil :: Q) method ow = Raise AttributeError.
Proof. exact @gsp_first_empty. Qed.
Print Assumptions C26_empty_first_entry_raises.
Theorem C26_empty_among_float64_raises :
  forall (K : CostStruct) (F : Type) (f1 : F) (sq_acc : K -> F -> F -> F -> K) (pq : pqueue K F) (to32 : F -> F) nc rows Q method ow,
  In QNil Q -> get_shortest_path f1 sq_acc pq to32 (QArr F64 nc rows :: Q) method ow = Raise AttributeError.
Proof. exact @gsp_f64_empty. Qed.
Print Assumptions C26_empty_among_float64_raises.

(** C26: conversely success False is returned only for an empty entry. *)
Theorem C26_failure_means_empty_entry :
  forall (K : CostStruct) (F : Type) (f1 : F) (sq_acc : K -> F -> F -> F -> K) (pq : pqueue K F) (to32 : F -> F) Q method ow,
  get_shortest_path f1 sq_acc pq to32 Q method ow = Ok GspFail -> Exists (fun e => qlen e = 0) Q.
Proof. exact @gsp_fail_empty. Qed.
Print Assumptions C26_failure_means_empty_entry.

Example C26_case : Forall wf_entry [QArr F32 1 [[5]]; QNil; QArr F32 1 [[2]]]%Z /\
  get_shortest_path (K := ZCost) 1%Z zsq stl_queue (fun z => z) [QArr F32 1 [[5]]; QNil; QArr F32 1 [[2]]]%Z "bfs" None = Ok GspFail.
Proof. split; [repeat constructor|vm_compute; reflexivity]. Qed.

(** C27 *)
Theorem C27_unknown_method :
  forall (K : CostStruct) (F : Type) (f1 : F) (sq_acc : K -> F -> F -> F -> K) (pq : pqueue K F) (to32 : F -> F)
    (t : dtype) n data ow,
  uniform n data -> data <> [] -> Forall (fun col => col <> []) data ->
  forall method, method <> "bfs"%string -> method <> "dijkstra"%string ->
  get_shortest_path f1 sq_acc pq to32 (arrays t n data) method ow = Raise NotImplementedError.
Proof. exact @gsp_unknown. Qed.
Print Assumptions C27_unknown_method.
Example C27_case : uniform 1 [[[5]; [0]]; [[9]; [1]]]%Z /\
  get_shortest_path (K := ZCost) 1%Z zsq stl_queue (fun z => z) (arrays F32 1 [[[5]; [0]]; [[9]; [1]]]%Z) "BFS" None = Raise NotImplementedError.
Proof. split; [repeat constructor|vm_compute; reflexivity]. Qed.

(** C28: entry i holds exactly the collision-free solutions of the samples drawn for point i, in order. *)
Theorem C28_no_redundancy_exact :
  forall (F T P S : Type) (to32 : F -> F) (ik : T -> option (list (list F))) (coll : list F -> S -> bool * S)
    (samples : P -> nat -> S -> res (list T * S)) (cc : list F -> bool),
  (forall q s, fst (coll q s) = cc q) ->
  forall num path st Q st', cart_to_joint_no_redundancy to32 ik coll samples path num st = Ok (Q, st') ->
  Forall2 (fun tp e => exists s Ts s', samples tp num s = Ok (Ts, s') /\ e = entry_of to32 (flat_map (fun t => free cc (ik t)) Ts)) path Q.
Proof. exact @no_redundancy_sound. Qed.
Print Assumptions C28_no_redundancy_exact.

(** C28: it returns whenever the sampler does and all solutions have one length. *)
Theorem C28_no_redundancy_returns :
  forall (F T P S : Type) (to32 : F -> F) (ik : T -> option (list (list F))) (coll : list F -> S -> bool * S)
    (samples : P -> nat -> S -> res (list T * S)) (cc : list F -> bool),
  (forall q s, fst (coll q s) = cc q) ->
  forall n num (draw : P -> list T), (forall t qs q, ik t = Some qs -> In q qs -> length q = n) ->
  (forall tp s, exists s', samples tp num s = Ok (draw tp, s')) ->
  forall path st, exists st', cart_to_joint_no_redundancy to32 ik coll samples path num st =
    Ok (map (fun tp => entry_of to32 (flat_map (fun t => free cc (ik t)) (draw tp))) path, st').
Proof. exact @no_redundancy_fixed. Qed.
Print Assumptions C28_no_redundancy_returns.
Example C28_case : cart_to_joint_no_redundancy (fun z => z) toy_ik toy_coll toy_samples [3; 7; 2] 2 0 =
  Ok ([QArr F32 1 [[13]; [4]; [14]]; QNil; QArr F32 1 [[2]; [12]; [13]]]%Z, 11).
Proof. vm_compute. reflexivity. Qed.

(** C29: false, only the last sample survives. *)
Theorem C29_simple_all_samples_refuted : exists Q st',
  cart_to_joint_simple (fun z : Z => z) toy_ik_fix toy_coll toy_discretise [0] [0] 0 None = Ok (Q, st') /\
  toy_discretise 0 0 = Ok ([0; 1], 0) /\
  Q <> [entry_of (fun z => z) (flat_map (fsols toy_ik_fix toy_cc [0]) [0; 1])].
Proof. exact simple_refuted. Qed.
Print Assumptions C29_simple_all_samples_refuted.
(** C29: what the code computes for every robot. *)
Theorem C29_simple_last_sample_only :
  forall (F T P S G : Type) (to32 : F -> F) (ik_fix : T -> G -> option (list (list F))) (coll : list F -> S -> bool * S)
    (discretise : P -> S -> res (list T * S)) (cc : list F -> bool),
  (forall q s, fst (coll q s) = cc q) ->
  forall qf path st o Q st',
  (forall tp s Ts s', In tp path -> discretise tp s = Ok (Ts, s') -> Ts <> []) ->
  cart_to_joint_simple to32 ik_fix coll discretise path qf st o = Ok (Q, st') ->
  Forall2 (fun tp e => exists s Ts t s', discretise tp s = Ok (Ts ++ [t], s') /\
    e = entry_of to32 (flat_map (fun g => free cc (ik_fix t g)) qf)) path Q.
Proof. exact @simple_last. Qed.
Print Assumptions C29_simple_last_sample_only.
(** C29: holds when every point has exactly one sample. *)
Theorem C29_simple_one_sample_partial :
  forall (F T P S G : Type) (to32 : F -> F) (ik_fix : T -> G -> option (list (list F))) (coll : list F -> S -> bool * S)
    (discretise : P -> S -> res (list T * S)) (cc : list F -> bool),
  (forall q s, fst (coll q s) = cc q) ->
  forall qf path st o Q st',
  (forall tp s Ts s', In tp path -> discretise tp s = Ok (Ts, s') -> length Ts = 1) ->
  cart_to_joint_simple to32 ik_fix coll discretise path qf st o = Ok (Q, st') ->
  Forall2 (fun tp e => exists s Ts s', discretise tp s = Ok (Ts, s') /\
    e = entry_of to32 (flat_map (fun t => flat_map (fun g => free cc (ik_fix t g)) qf) Ts)) path Q.
Proof. exact @simple_one_sample. Qed.
Print Assumptions C29_simple_one_sample_partial.
Example C29_case : cart_to_joint_simple (fun z => z) toy_ik_fix toy_coll (fun tp s => Ok ([tp], s)) [2; 3] [0; 1] 0 None =
  Ok ([QArr F32 1 [[2]; [12]; [13]]; QArr F32 1 [[13]; [4]; [14]]]%Z, 8).
Proof. vm_compute. reflexivity. Qed.

(** C29: a first point without samples leaves the variable of the solutions unbound. *)
Theorem C29_simple_no_samples :
  forall (F T P S G : Type) (to32 : F -> F) (ik_fix : T -> G -> option (list (list F))) (coll : list F -> S -> bool * S)
    (discretise : P -> S -> res (list T * S)) tp path qf st s',
  discretise tp st = Ok ([], s') -> cart_to_joint_simple to32 ik_fix coll discretise (tp :: path) qf st None = Raise UnboundLocalError.
Proof. exact @simple_unbound. Qed.
Print Assumptions C29_simple_no_samples.

(** C30: false: with the default limits and a robot without solution the loop does not end. *)
Theorem C30_incremental_stops_refuted : exists (ik : nat -> option (list (list Z))) (tp : nat),
  forall fuel st, cart_to_joint_incremental (fun z : Z => z) ik toy_coll toy_samples fuel [tp] 500 1000 st = OutOfFuel.
Proof. exact incremental_refuted. Qed.
Print Assumptions C30_incremental_stops_refuted.
(** C30: it never ends for any robot and point whose samples have no collision-free solution. *)
Theorem C30_incremental_never_ends :
  forall (F T P S : Type) (to32 : F -> F) (ik : T -> option (list (list F))) (coll : list F -> S -> bool * S)
    (samples : P -> nat -> S -> res (list T * S)) (cc : list F -> bool),
  (forall q s, fst (coll q s) = cc q) ->
  forall tp path mn mx, 0 < mn -> 0 < mx ->
  (forall s, exists t Ts s', samples tp 1 s = Ok (t :: Ts, s') /\ free cc (ik t) = []) ->
  forall fuel st, cart_to_joint_incremental to32 ik coll samples fuel (tp :: path) mn mx st = OutOfFuel.
Proof. exact @incremental_diverges. Qed.
Print Assumptions C30_incremental_never_ends.
(** C30: it ends within max_tries rounds when every sample has a solution. *)
Theorem C30_incremental_stops_partial :
  forall (F T P S : Type) (to32 : F -> F) (ik : T -> option (list (list F))) (coll : list F -> S -> bool * S)
    (samples : P -> nat -> S -> res (list T * S)) (cc : list F -> bool),
  (forall q s, fst (coll q s) = cc q) ->
  forall n mn mx, (forall t qs q, ik t = Some qs -> In q qs -> length q = n) ->
  forall path, (forall tp s, In tp path -> exists t Ts s', samples tp 1 s = Ok (t :: Ts, s') /\ free cc (ik t) <> []) ->
  forall st, exists Q st', cart_to_joint_incremental to32 ik coll samples mx path mn mx st = Ok (Q, st').
Proof. exact @incremental_stops. Qed.
Print Assumptions C30_incremental_stops_partial.
Example C30_case : cart_to_joint_incremental (fun z => z) toy_ik toy_coll toy_samples 9 [3; 2] 2 9 0 =
  Ok ([QArr F32 1 [[13]; [13]]; QArr F32 1 [[2]; [12]]]%Z, 9).
Proof. vm_compute. reflexivity. Qed.

(** C31: at least min(min_samples, max_tries) collision-free solutions, drawn from
    that point, and no draw once there are enough. *)
Theorem C31_incremental_enough :
  forall (F T P S : Type) (to32 : F -> F) (ik : T -> option (list (list F))) (coll : list F -> S -> bool * S)
    (samples : P -> nat -> S -> res (list T * S)) (cc : list F -> bool),
  (forall q s, fst (coll q s) = cc q) ->
  forall fuel mn mx path st Q st', cart_to_joint_incremental to32 ik coll samples fuel path mn mx st = Ok (Q, st') ->
  let found := flat_map (fun t => free cc (ik t)) in
  Forall2 (fun tp e => exists Ts,
    Forall (fun t => exists s Ts s', samples tp 1 s = Ok (Ts, s') /\ nth_error Ts 0 = Some t) Ts /\
    e = entry_of to32 (found Ts) /\ Nat.min mn mx <= length (found Ts) /\
    forall Ts1 t Ts2, Ts = Ts1 ++ t :: Ts2 -> length (found Ts1) < mx /\ (Ts1 <> [] -> length (found Ts1) < mn)) path Q.
Proof. exact @incremental_enough. Qed.
Print Assumptions C31_incremental_enough.
Example C31_case : cart_to_joint_incremental (fun z => z) toy_ik toy_coll toy_samples 9 [3] 5 3 0 =
  Ok ([QArr F32 1 [[13]; [13]; [13]]]%Z, 9).
Proof. vm_compute. reflexivity. Qed.

(** C32: success: max_iters entries everywhere, the last path and cost are returned,
    and every configuration is a rounded collision-free ik solution of a pose drawn
    from its point (the given point at first, then the pose reached before, at a
    halved distance). *)
Theorem C32_iterative_success :
  forall (K : CostStruct) (F T P S D : Type) (f1 : F) (sq_acc : K -> F -> F -> F -> K) (pq : pqueue K F) (to32 : F -> F)
    (ik : T -> option (list (list F))) (coll : list F -> S -> bool * S)
    (class_of : P -> pclass) (samples_near : P -> nat -> D -> S -> res (list T * S))
    (fk : list F -> res T) (tol_ori_at : T -> P) (dist0 : D) (halve : D -> D) (cc : list F -> bool),
  (forall q s, fst (coll q s) = cc q) ->
  forall path hs num n st p c costs paths nt st',
  cart_to_joint_iterative f1 sq_acc pq to32 ik coll class_of samples_near fk tol_ori_at dist0 halve path hs num n st =
    Ok (ItOk p c costs paths nt, st') ->
  length costs = n /\ length paths = n /\ nt = n /\ (exists ps, paths = ps ++ [p]) /\ (exists cs, costs = cs ++ [c]) /\
  Forall (fun x => length x = length path) paths /\
  forall k i x q, nth_error paths k = Some x -> nth_error x i = Some q ->
    exists tp, point_at fk tol_ori_at path paths k i tp /\ reached to32 ik samples_near cc num tp (Nat.iter k halve dist0) q.
Proof. exact @iterative_success. Qed.
Print Assumptions C32_iterative_success.
(** C32: success False: fewer than max_iters iterations succeeded and a point of the
    next one had no collision-free solution. *)
Theorem C32_iterative_failure :
  forall (K : CostStruct) (F T P S D : Type) (f1 : F) (sq_acc : K -> F -> F -> F -> K) (pq : pqueue K F) (to32 : F -> F)
    (ik : T -> option (list (list F))) (coll : list F -> S -> bool * S)
    (class_of : P -> pclass) (samples_near : P -> nat -> D -> S -> res (list T * S))
    (fk : list F -> res T) (tol_ori_at : T -> P) (dist0 : D) (halve : D -> D) (cc : list F -> bool),
  (forall q s, fst (coll q s) = cc q) ->
  forall path hs num n st st',
  cart_to_joint_iterative f1 sq_acc pq to32 ik coll class_of samples_near fk tol_ori_at dist0 halve path hs num n st = Ok (ItFail, st') ->
  exists (ps : list (list (list F))) i tp, length ps < n /\ point_at fk tol_ori_at path ps (length ps) i tp /\
    blocked ik samples_near cc num tp (Nat.iter (length ps) halve dist0) /\
    forall k j x q, nth_error ps k = Some x -> nth_error x j = Some q ->
      exists tp', point_at fk tol_ori_at path ps k j tp' /\ reached to32 ik samples_near cc num tp' (Nat.iter k halve dist0) q.
Proof. exact @iterative_failure. Qed.
Print Assumptions C32_iterative_failure.
(** C32: no iterations, no scene. *)
Theorem C32_iterative_zero_iterations_raises :
  forall (K : CostStruct) (F T P S D : Type) (f1 : F) (sq_acc : K -> F -> F -> F -> K) (pq : pqueue K F) (to32 : F -> F)
    (ik : T -> option (list (list F))) (coll : list F -> S -> bool * S)
    (class_of : P -> pclass) (samples_near : P -> nat -> D -> S -> res (list T * S))
    (fk : list F -> res T) (tol_ori_at : T -> P) (dist0 : D) (halve : D -> D) path hs num st,
  Forall (fun tp => class_of tp = CFree) path ->
  cart_to_joint_iterative f1 sq_acc pq to32 ik coll class_of samples_near fk tol_ori_at dist0 halve path hs num 0 st = Raise UnboundLocalError.
Proof. exact @iterative_zero. Qed.
Print Assumptions C32_iterative_zero_iterations_raises.
Example C32_case :
  cart_to_joint_iterative (K := ZCost) 1%Z zsq stl_queue (fun z => z) toy_ik toy_coll (fun _ => CFree) toy_near toy_fk (fun t => t) 64 Nat.div2
    [0; 2] true 2 2 0 = Ok (ItOk (K := ZCost) [[2]; [2]]%Z (Some 0%Z) [Some 1%Z; Some 0%Z] [[[1]; [2]]; [[2]; [2]]]%Z 2, 20).
Proof. vm_compute. reflexivity. Qed.
Example C32_fail_case :
  cart_to_joint_iterative (K := ZCost) 1%Z zsq stl_queue (fun z => z) toy_ik toy_coll (fun _ => CFree) toy_near toy_fk (fun t => t) 64 Nat.div2
    [0; 7] true 2 2 0 = Ok (ItFail, 6).
Proof. vm_compute. reflexivity. Qed.

(** C33: false; every class but FreeOrientationPt raises NameError. *)
Theorem C33_point_types_refuted : exists c, c = CTolPos /\
  solution_point (F:=Z) (fun _ : nat => c) 0 0 = Raise NameError.
Proof. exact point_class_refuted. Qed.
Print Assumptions C33_point_types_refuted.
Theorem C33_other_point_types_raise :
  forall (K : CostStruct) (F T P S D : Type) (f1 : F) (sq_acc : K -> F -> F -> F -> K) (pq : pqueue K F) (to32 : F -> F)
    (ik : T -> option (list (list F))) (coll : list F -> S -> bool * S)
    (class_of : P -> pclass) (samples_near : P -> nat -> D -> S -> res (list T * S))
    (fk : list F -> res T) (tol_ori_at : T -> P) (dist0 : D) (halve : D -> D) path hs num n st,
  Exists (fun tp => class_of tp <> CFree) path ->
  cart_to_joint_iterative f1 sq_acc pq to32 ik coll class_of samples_near fk tol_ori_at dist0 halve path hs num n st = Raise NameError.
Proof. exact @iterative_wrong_class. Qed.
Print Assumptions C33_other_point_types_raise.
Theorem C33_free_orientation_points_partial :
  forall (F P D : Type) (class_of : P -> pclass) (dist0 : D) path, Forall (fun tp => class_of tp = CFree) path ->
  exists sps, mapM (solution_point (F:=F) class_of dist0) path = Ok sps.
Proof. exact @mapM_free. Qed.
Print Assumptions C33_free_orientation_points_partial.
Example C33_case : mapM (solution_point (F:=Z) (fun _ : nat => CFree) 64) [4] = Ok [mkSP 4 CFree None 64].
Proof. reflexivity. Qed.

(** C34 *)
Theorem C34_new_bounds :
  forall l u m red, (l <= m <= u)%R -> (0 < red)%R ->
  let '(l', u') := get_new_bounds l u m red in (l <= l' <= m /\ m <= u' <= u /\ u' - l' <= 2 / red * (u - l))%R.
Proof. exact new_bounds_spec. Qed.
Print Assumptions C34_new_bounds.
Theorem C34_refinement_halves :
  forall ms l u, (l <= u)%R -> centred 4 ms (l, u) ->
  let '(l', u') := refine 4 ms (l, u) in (l <= l' /\ l' <= u' /\ u' <= u /\ (u' - l') * 2 ^ length ms <= u - l)%R.
Proof. exact refine_spec. Qed.
Print Assumptions C34_refinement_halves.
(** C34: exact interval away from the borders; with red = 2 the interval need not shrink. *)
Theorem C34_new_bounds_exact :
  forall l u m red, (l <= u)%R -> (0 < red)%R -> (l + (u - l) / red <= m <= u - (u - l) / red)%R ->
  get_new_bounds l u m red = (m - (u - l) / red, m + (u - l) / red)%R.
Proof. exact new_bounds_exact. Qed.
Print Assumptions C34_new_bounds_exact.
Theorem C34_red2_keeps_interval : forall l u, (l <= u)%R -> get_new_bounds l u ((l + u) / 2) 2 = (l, u).
Proof. exact new_bounds_red2. Qed.
Print Assumptions C34_red2_keeps_interval.
Example C34_case : get_new_bounds 0 8 3 4 = (1, 5)%R /\ centred 4 [3%R] (0, 8)%R.
Proof. split; [rewrite new_bounds_exact by lra; f_equal; lra|cbn; lra]. Qed.

(** C35 *)
Theorem C35_set_initial_path :
  forall (F : Type) npath (q : ndarr F),
  match q with
  | ND1 v => exists m, set_initial_path npath q = Ok m /\ length m = npath /\ (forall i, i < npath -> nth_error m i = Some v)
  | ND2 rows _ => (length rows = npath -> set_initial_path npath q = Ok rows) /\ (length rows <> npath -> set_initial_path npath q = Raise AssertionError)
  | NDother _ => set_initial_path npath q = Raise GenericException
  end.
Proof. exact @set_initial_path_spec. Qed.
Print Assumptions C35_set_initial_path.
Example C35_case : set_initial_path 2 (ND1 [1; 2]%Z) = Ok [[1; 2]; [1; 2]]%Z.
Proof. reflexivity. Qed.

(** C36: false for all four methods: the attribute scene does not exist. *)
Theorem C36_solve_without_scene_refuted :
  forall (Q A B C : Type) (grid incremental : res Q) (iterative : res B) (optimize : res C) (shortest : Q -> string -> res A)
    default method,
  known (match method with Some m => m | None => default end) ->
  solve grid incremental iterative optimize shortest false default method = Raise AttributeError.
Proof. exact @solve_no_scene. Qed.
Print Assumptions C36_solve_without_scene_refuted.
(** C36: with a scene the method is dispatched; unknown methods raise. *)
Theorem C36_solve_with_scene_partial :
  forall (Q A B C : Type) (grid incremental : res Q) (iterative : res B) (optimize : res C) (shortest : Q -> string -> res A)
    default method m, m = match method with Some m => m | None => default end ->
  (m = "grid"%string -> solve grid incremental iterative optimize shortest true default method = (q <- grid ;; r <- shortest q "dijkstra"%string ;; Ok (AGrid r))) /\
  (m = "grid_iterative"%string -> solve grid incremental iterative optimize shortest true default method = (r <- iterative ;; Ok (AIter r))) /\
  (m = "optimization"%string -> solve grid incremental iterative optimize shortest true default method = (r <- optimize ;; Ok (AOpt r))) /\
  (m = "grid_incremental"%string -> solve grid incremental iterative optimize shortest true default method = (q <- incremental ;; r <- shortest q "dijkstra"%string ;; Ok (AGrid r))).
Proof. exact @solve_with_scene. Qed.
Print Assumptions C36_solve_with_scene_partial.
Theorem C36_solve_unknown_method :
  forall (Q A B C : Type) (grid incremental : res Q) (iterative : res B) (optimize : res C) (shortest : Q -> string -> res A)
    b default method,
  ~ known (match method with Some m => m | None => default end) ->
  solve grid incremental iterative optimize shortest b default method = Raise GenericException.
Proof. exact @solve_unknown. Qed.
Print Assumptions C36_solve_unknown_method.
Example C36_case : known "grid" /\ ~ known "gridd".
Proof. split; [left; auto|]. intros [H|[H|[H|[H|[]]]]]; discriminate. Qed.
