(** * Property theorems C131, C132: joint motion in floats, and the documented norm.

    [motion w p]: exact sum over steps and joints of w (x - y)^2.  [travel p]: exact sum of
    |x - y|.  [fsq32]: the cost of graph.cpp in float and double as C++ computes it.
    [b32]: rounding to float.  [small x]: x is a float and |x| <= 2^126.  [weights_ok]:
    floats, not negative.  [ops n N] = 2n + N + 3, [unf n N] = n (N - 1), [u32] = 2^-24,
    [eta32] = 2^-150, [max32] = 2^128.  [within k m v x]: (1 - u32)^k v - m eta32 <= x <=
    (1 + u32)^k (v + m eta32).  [seen b32 t data]: data converted to float32. *)
From Coq Require Import String List Arith Reals.
From Verif Require Import PyBase Cost SpecPath CostFloat GraphCommon CppGraph CppGraphProofs CppSearch CppExamples Planning PlanningProofs FloatCost FloatCostProofs.
Import ListNotations.
Local Open Scope R_scope.

(** C131: method bfs; the bound for any choice of rows that does not overflow. *)
Theorem C131_bfs_near_optimal : forall (pq : pqueue Float32Cost R) t n data ow,
  uniform n data -> data <> [] -> Forall (fun col => col <> []) data ->
  Forall (Forall (Forall small)) (seen b32 t data) -> (forall w, ow = Some w -> weights_ok w) ->
  let w := eff_weights 1 n ow in let k := ops n (length data) in let m := unf n (length data) in
  (exists p, (exists js, picks (seen b32 t data) js p) /\ (1 + u32) ^ k * (motion w p + INR m * eta32) < max32) ->
  exists p v, get_shortest_path 1 fsq32 pq b32 (arrays t n data) "bfs" ow = Ok (GspOk (K := Float32Cost) p (Some v)) /\
    (exists js, picks (seen b32 t data) js p) /\ within k m (motion w p) v /\
    forall p', (exists js, picks (seen b32 t data) js p') ->
      (1 - u32) ^ k * motion w p <= (1 + u32) ^ k * (motion w p' + INR m * eta32) + INR m * eta32.
Proof. exact bfs_near. Qed.
Print Assumptions C131_bfs_near_optimal.

(** C131: up to 10 joints and 1000 points: within 0.02 percent of the optimum. *)
Theorem C131_bfs_practical : forall (pq : pqueue Float32Cost R) t n data ow,
  uniform n data -> data <> [] -> Forall (fun col => col <> []) data ->
  Forall (Forall (Forall small)) (seen b32 t data) -> (forall w, ow = Some w -> weights_ok w) ->
  let w := eff_weights 1 n ow in
  (n <= 10)%nat -> (length data <= 1000)%nat -> (exists p, (exists js, picks (seen b32 t data) js p) /\ motion w p <= 10 ^ 38) ->
  exists p v, get_shortest_path 1 fsq32 pq b32 (arrays t n data) "bfs" ow = Ok (GspOk (K := Float32Cost) p (Some v)) /\
    (exists js, picks (seen b32 t data) js p) /\ Rabs (v - motion w p) <= 0.0001 * motion w p + 2 / 10 ^ 40 /\
    forall p', (exists js, picks (seen b32 t data) js p') -> motion w p <= 1.0002 * motion w p' + 3 / 10 ^ 40.
Proof. exact bfs_practical. Qed.
Print Assumptions C131_bfs_practical.

(** C131: method dijkstra: the reported cost is that of the path (it need not be the optimum, C18). *)
Theorem C131_dijkstra_cost : forall (pq : pqueue Float32Cost R) t n data ow,
  uniform n data -> data <> [] -> Forall (fun col => col <> []) data ->
  Forall (Forall (Forall small)) (seen b32 t data) -> (forall w, ow = Some w -> weights_ok w) ->
  let w := eff_weights 1 n ow in let k := ops n (length data) in let m := unf n (length data) in
  pq_ok pq -> (forall p, (exists js, picks (seen b32 t data) js p) -> (1 + u32) ^ k * (motion w p + INR m * eta32) < max32) ->
  exists p v, get_shortest_path 1 fsq32 pq b32 (arrays t n data) "dijkstra" ow = Ok (GspOk (K := Float32Cost) p (Some v)) /\
    (exists js, picks (seen b32 t data) js p) /\ within k m (motion w p) v.
Proof. exact dij_near. Qed.
Print Assumptions C131_dijkstra_cost.

Example C131_case : uniform 2 case_data /\ Forall (Forall (Forall small)) (seen b32 F32 case_data) /\
  (exists js p, picks case_data js p /\ motion [1; 1] p = 10) /\ (exists js p, picks case_data js p /\ motion [1; 1] p = 16).
Proof. exact case_ok. Qed.

(** C132 is false: the path returned travels 6 although another travels 4. *)
Theorem C132_l1_refuted : forall pq, exists p,
  get_shortest_path (K := RCost) 1 rsq pq (fun x => x) (arrays F32 2 case_data) "bfs" None = Ok (GspOk (K := RCost) p (Some 10)) /\ travel p = 6 /\
  exists js' p', picks case_data js' p' /\ travel p' = 4.
Proof. exact l1_refuted. Qed.
Print Assumptions C132_l1_refuted.

(** C132, what holds: the squares are minimised, so the l1 length is at most
    sqrt(n (N - 1)) times the least one (exact arithmetic, no weights). *)
Theorem C132_squares_partial : forall pq n data,
  uniform n data -> data <> [] -> Forall (fun col => col <> []) data ->
  exists js p, get_shortest_path (K := RCost) 1 rsq pq (fun x => x) (arrays F32 n data) "bfs" None = Ok (GspOk (K := RCost) p (Some (motion (repeat 1 n) p))) /\
    picks data js p /\
    forall js' p', picks data js' p' -> motion (repeat 1 n) p <= motion (repeat 1 n) p' /\ travel p * travel p <= INR (unf n (length data)) * (travel p' * travel p').
Proof. exact exact_search. Qed.
Print Assumptions C132_squares_partial.
Example C132_example : uniform 2 case_data /\ case_data <> [] /\ Forall (fun col => col <> []) case_data.
Proof. split; [exact (proj1 case_ok)|]. split; [discriminate|]. repeat constructor; discriminate. Qed.
