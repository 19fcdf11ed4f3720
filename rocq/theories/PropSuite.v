(** * Property theorems C168: the assertions of the test suite (tests/test_*.py).

    The tests that draw random configurations are stated for every configuration; the tests
    with fixed data are stated with the data of [Suite].  The box-box test of fcl is any
    exact one ([exact_prim]).  The fk tests are C45. *)
From Coq Require Import String.
From Coq Require Import Reals Lra List Bool Arith ZArith.
From Verif Require Import PyBase Cost GraphCommon Mat Util UtilProofs Geometry GeometryProofs Robot RobotProofs RobotForms Ik IkProofs KukaProofs RailProofs Path Resources ResourcesProofs Dp PyGraph CppGraph CppExamples Io Suite SuiteProofs.
Import ListNotations.
Local Open Scope R_scope.
Local Notation kuka6 := (KukaG 0.18 0.6 0.62 0.115).

(** test_robot.py TestIK: fk, ik and fk again; ik succeeds on every pose fk gives. *)
Theorem C168_anthropomorphic : forall a2 a3 r q1 q2 q3 T, a2 * a3 <> 0 -> like r (AnthropomorphicArm a2 a3) -> r_tfb r = eye4 -> r_tool r = None -> snd (fk r [q1; q2; q3]) = Ok T ->
  exists sols, anthro_ik r T = Ok (IkOk sols) /\ length sols = 4%nat /\
    forall s, In s sols -> exists F, snd (fk r s) = Ok F /\ dist2 (pos F) (pos T) <= 2 * Rabs (a2 * a3) * tol /\ (Rabs (cos q3) <= 1 - tol -> pos F = pos T).
Proof. exact anthro_round. Qed.
Print Assumptions C168_anthropomorphic.
Theorem C168_arm2 : forall a1 a2 a3 r q1 q2 q3 T, a2 * a3 <> 0 -> like r (Arm2 a1 a2 a3) -> r_tfb r = eye4 -> r_tool r = None -> snd (fk r [q1; q2; q3]) = Ok T ->
  exists sols, arm2_ik r T = Ok (IkOk sols) /\ (length sols = 2 \/ length sols = 4)%nat /\
    forall s, In s sols -> exists s1 s2 s3 F, s = [s1; s2; s3] /\ snd (fk r s) = Ok F /\ dist2 (pos F) (pos T) <= 2 * Rabs (a2 * a3) * tol /\ (sin s3 <> 0 -> pos F = pos T).
Proof. exact arm2_round. Qed.
Print Assumptions C168_arm2.
Theorem C168_wrist : forall d3 w t1 t2 t3 T, like (w_rob w) (SphericalWrist d3) -> rigid (r_tfb (w_rob w)) -> r_tool (w_rob w) = None -> snd (fk (w_rob w) [t1; t2; t3]) = Ok T -> sin t2 <> 0 ->
  exists w' s, wrist_ik w T = (w', IkOk s) /\ read w' s <> [] /\ forall q, In q (read w' s) -> exists F, snd (fk (w_rob w') q) = Ok F /\ rot F = rot T.
Proof. exact wrist_round. Qed.
Print Assumptions C168_wrist.
Theorem C168_kuka : forall a1 a2 d4 d6 k q1 q2 q3 q4 q5 q6 T, a2 * d4 <> 0 -> kuka_ok a1 a2 d4 d6 k -> rigid (r_tfb (k_rob k)) -> rigid_tool (k_rob k) -> snd (fk (k_rob k) [q1; q2; q3; q4; q5; q6]) = Ok T ->
  exists sols, snd (kuka_ik k T) = Ok (IkOk (Own sols)) /\ (length sols = 4 \/ length sols = 8)%nat /\
    forall s, In s sols -> exists s1 s2 s3 s4 s5 s6 F, s = [s1; s2; s3; s4; s5; s6] /\ snd (fk (k_rob k) s) = Ok F /\
      (sin s5 <> 0 -> cos s3 <> 0 -> F = T) /\ (sin s5 <> 0 -> rot F = rot T /\ dist2 (pos F) (pos T) <= 2 * Rabs (a2 * d4) * tol).
Proof. exact kuka_round. Qed.
Print Assumptions C168_kuka.
Theorem C168_rail : forall rl q0 q1 q2 q3 q4 q5 q6 T, rail_ok 0.18 0.6 0.62 0.115 rl -> rigid (r_tfb (rl_rob rl)) -> rigid_tool (rl_rob rl) -> snd (fk (rl_rob rl) [q0; q1; q2; q3; q4; q5; q6]) = Ok T ->
  exists s, snd (rail_ik rl T q0) = Ok (IkOk s) /\ (forall w, read w s <> []) /\
    forall w q, In q (read w s) -> exists s1 s2 s3 s4 s5 s6 F, q = [q0; s1; s2; s3; s4; s5; s6] /\ snd (fk (rl_rob rl) q) = Ok F /\
      (sin s5 <> 0 -> cos s3 <> 0 -> F = T) /\ (sin s5 <> 0 -> rot F = rot T /\ dist2 (pos F) (pos T) <= 2 * Rabs (0.6 * 0.62) * tol).
Proof. exact rail_round. Qed.
Print Assumptions C168_rail.
(** the robots of the tests meet the hypotheses *)
Example C168_example : like (AnthropomorphicArm 1 1) (AnthropomorphicArm 1 1) /\ like (Arm2 1 1 1) (Arm2 1 1 1) /\ like (w_rob (new_wrist 1)) (SphericalWrist 1) /\ kuka_ok 0.18 0.6 0.62 0.115 (new_kuka 0.18 0.6 0.62 0.115) /\
  rail_ok 0.18 0.6 0.62 0.115 (new_rail 0.18 0.6 0.62 0.115) /\ rigid eye4.
Proof. split; [apply like_refl, Anthro_good|]. split; [apply like_refl, Arm2_good|]. split; [apply like_refl, Wrist_good|]. split; [apply new_kuka_ok|]. split; [apply new_rail_ok|apply rigid_eye]. Qed.

(** test_robot.py TestCollisionChecking, test_collision_checking.py. *)
Theorem C168_self_collision : forall prim, exact_prim prim -> snd (is_in_self_collision prim kuka6 q_up) = Ok false /\ snd (is_in_self_collision prim kuka6 q_folded) = Ok true.
Proof. exact self_tests. Qed.
Print Assumptions C168_self_collision.
Theorem C168_collision : forall prim, exact_prim prim ->
  snd (robot_collision prim kuka6 q_up obj1) = Ok true /\ snd (robot_collision prim kuka6 q_up obj2) = Ok false /\ snd (robot_collision prim kuka6 q_table table_scene) = Ok true.
Proof. exact collision_tests. Qed.
Print Assumptions C168_collision.

(** test_geometry.py. *)
Theorem C168_vertices :
  get_vertices (Shape 1 2 3) eye4 = [V3 (-0.5) 1 1.5; V3 (-0.5) 1 (-1.5); V3 (-0.5) (-1) 1.5; V3 (-0.5) (-1) (-1.5); V3 0.5 1 1.5; V3 0.5 1 (-1.5); V3 0.5 (-1) 1.5; V3 0.5 (-1) (-1.5)] /\
  get_vertices (Shape 1 2 3) (M4 mid (V3 10.5 0 0) v0 1) = [V3 10 1 1.5; V3 10 1 (-1.5); V3 10 (-1) 1.5; V3 10 (-1) (-1.5); V3 11 1 1.5; V3 11 1 (-1.5); V3 11 (-1) 1.5; V3 11 (-1) (-1.5)] /\
  get_vertices (Shape 1 2 3) (M4 (M3 1 0 0 0 0 (-1) 0 1 0) v0 v0 1) = [V3 (-0.5) (-1.5) 1; V3 (-0.5) 1.5 1; V3 (-0.5) (-1.5) (-1); V3 (-0.5) 1.5 (-1); V3 0.5 (-1.5) 1; V3 0.5 1.5 1; V3 0.5 (-1.5) (-1); V3 0.5 1.5 (-1)] /\
  length (get_edges (Shape 1 2 3) eye4) = 12%nat /\ nth_error (get_edges (Shape 1 2 3) eye4) 0 = Some (V3 (-0.5) 1 1.5, V3 (-0.5) 1 (-1.5)).
Proof. exact vertex_tests. Qed.
Print Assumptions C168_vertices.
Theorem C168_polyhedron : get_normals eye4 = axes6 /\ pA (get_polyhedron (Shape 1 2 3) eye4) = axes6 /\ pb (get_polyhedron (Shape 1 2 3) eye4) = [0.5; 0.5; 1; 1; 1.5; 1.5] /\
  forall tf, pA (get_polyhedron (Shape 1 2 3) tf) = map (mapply (rot tf)) axes6 /\
    pb (get_polyhedron (Shape 1 2 3) tf) = map (fun p => fst p + vdot (snd p) (pos tf)) (combine [0.5; 0.5; 1; 1; 1.5; 1.5] (map (mapply (rot tf)) axes6)) /\
    get_polyhedrons (Coll [Shape 1 2 3] [tf]) = [get_polyhedron (Shape 1 2 3) tf].
Proof. exact poly_tests. Qed.
Print Assumptions C168_polyhedron.
Theorem C168_boxes : forall prim, exact_prim prim ->
  shape_collision prim (Shape 1 1 1) eye4 (Shape 1 1 2) eye4 = true /\
  shape_collision prim (Shape 1 1 1) eye4 (Shape 1 2 1) (pose_z (PI / 4) 0.7 0.7 0) = true /\
  shape_collision prim (Shape 1 1 1) (pose_z 0 (-1) (-1) 0) (Shape 1 1 2) (pose_z (PI / 4) (-2) (-2) 0) = false.
Proof. exact test_boxes. Qed.
Print Assumptions C168_boxes.

(** test_io.py, test_path.py; for every sequence of random rows. *)
Theorem C168_task : exists ps sc, parse_task_data test_task = Ok (map PFree ps, sc) /\ length ps = 10%nat /\ nth_error ps 0 = Some [0.8; -0.2; 0.2] /\ nth_error ps 9 = Some [0.8; 0.2; 0.2] /\ c_s sc = [Shape 0.5 0.5 0.1].
Proof. exact test_task_path. Qed.
Print Assumptions C168_task.
Theorem C168_discretise : exists t, new_tol 0 4 None 5 = Ok t /\ tol_discretise t = Ok [0; 1; 2; 3; 4].
Proof. exact test_tol. Qed.
Print Assumptions C168_discretise.
Theorem C168_samplers : forall ypr fuel rnd n, (n <= length rnd)%nat -> Forall (fun r => length r = 3%nat) rnd ->
  exists qs, length qs = n /\ sample_SO3 ypr fuel rnd n "quat" "random" = Ok (SQuat qs) /\ sample_SO3 ypr fuel rnd n "transform" "random" = Ok (STf (map qtransform qs)) /\ sample_SO3 ypr fuel rnd n "rpy" "random" = Ok (SRpy (map ypr qs)).
Proof. exact samplers. Qed.
Print Assumptions C168_samplers.
Theorem C168_free_samples : forall ypr fuel rnd n x y z, (1 <= n <= length rnd)%nat -> Forall (fun r => length r = 3%nat) rnd ->
  exists rows, free_samples ypr fuel rnd [x; y; z] n None None = Ok (SRows rows) /\ length rows = n /\ Forall (fun r => length r = 6%nat /\ firstn 3 r = [x; y; z]) rows.
Proof. exact free_shape. Qed.
Print Assumptions C168_free_samples.
Example C168_samplers_example : (1 <= 1 <= length [[0.1; 0.2; 0.3]%R])%nat /\ Forall (fun r => length r = 3%nat) [[0.1; 0.2; 0.3]].
Proof. split; [auto|]. repeat constructor. Qed.

(** test_dp.py, test_graph.py, test_pygraph.py. *)
Local Open Scope Z_scope.
Theorem C168_dp :
  calculate_value_function dp_costs4 = Ok ([[0]; [0; 0; 0]; [0; 0; 1]; [0; 0]; [0]]%nat, [[Some 2870]; [Some 2320; Some 2220; Some 2150]; [Some 1640; Some 1570; Some 1660]; [Some 1030; Some 1390]; [Some 0]]) /\
  apply_cost_function small_data l1_matrix = dp_costs /\
  calculate_value_function dp_costs = Ok ([[1; 2]; [0; 0; 0]; [0; 0]]%nat, [[Some 4; Some 3]; [Some 4; Some 3; Some 2]; [Some 0; Some 0]]) /\
  (r <- calculate_value_function dp_costs ;; extract_shortest_path small_data (fst r) (snd r)) = Ok [[0; 1]; [1; 1]; [0; 2]].
Proof. exact dp_tests. Qed.
Print Assumptions C168_dp.
Theorem C168_graph : @graph_calls ZCost Z 1 zsq [0; 0; 0; 1] [1; -1; 1; 0; 1; 1] [0; 2; 2; 2] = Ok (Some [1; 2; 0]).
Proof. exact graph_test. Qed.
Print Assumptions C168_graph.
Theorem C168_pygraph :
  PyGraph.get_shortest_path l1_cost py_data1 = Ok (SpOk [[0; 0]; [1; 0]; [2; 2]; [4; 5]; [4; 6]; [5; 11]] (Some 16 : ZCost)) /\
  PyGraph.get_shortest_path l1_cost py_data3 = Ok SpFail /\
  (exists g, get_shortest_path_segments l1_cost 6 py_data1 (Some 5 : ZCost) = Ok (SegSol g) /\ sg_success g = true /\ sg_path g = [[0; 0]; [1; 0]; [0; 2]] /\ sg_cost g = Some 4 /\ sg_single g = Some false /\
     sg_split_points g = Some [3; 3]%nat /\ sg_extra g = Some [([[5; 9]; [5; 10]; [5; 11]], Some 2 : ZCost)]) /\
  get_shortest_path_segments l1_cost 6 py_data1 (Some 2 : ZCost) = Ok SegStuck /\
  (exists g, get_shortest_path_segments l1_cost 6 py_data1 (Some 20 : ZCost) = Ok (SegSol g) /\ sg_success g = true /\ sg_path g = [[0; 0]; [1; 0]; [2; 2]; [4; 5]; [4; 6]; [5; 11]] /\ sg_cost g = Some 16 /\ sg_single g = Some true) /\
  (exists g, get_shortest_path_segments l1_cost 6 py_data4 (Some 20 : ZCost) = Ok (SegSol g) /\ sg_success g = false /\ sg_path g = [[0; 0]; [1; 0]; [2; 2]; [4; 5]; [4; 6]] /\ sg_cost g = Some 10).
Proof. exact pygraph_tests. Qed.
Print Assumptions C168_pygraph.
