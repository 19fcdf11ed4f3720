(** * The remaining scripts of examples/: quat_graph.py, tool_first_cc.py,
    iterative_grid_refining.py, follow_line_orientation_free.py and weld_circle.py.

    Plots, animations, printed text and the file that iterative_grid_refining.py saves
    are not modelled.  [draws], [src] are the rows of numbers np.random gives. *)
From Coq Require Import String Reals List Bool Arith.
From Verif Require Import PyBase Cost CppGraph CppExamples Mat Util Geometry Robot Ik Path Planning Resources Pipeline Iterative Io Tasks Gui PipelineExamples PyGraph PyCost.
Import ListNotations.
Local Open Scope R_scope.

(** ** quat_graph.py *)
(** the four numbers that Quaternion.__matmul__ (pyquaternion) multiplies *)
Definition quat_row (q : quat) : list R := [qw q; qx q; qy q; qz q].
(** quat_graph.py:7-9: one column from each of the lists of draws *)
Definition quat_columns (ypr : quat -> vec3) (fuel : nat) (draws : list (list (list R))) : res (list (list (list R))) :=
  mapM (fun rnd => s <- sample_SO3 ypr fuel rnd 10 "quat" "random" ;;
                   match s with SQuat l => Ok (map quat_row l) | _ => Raise TypeError end) draws.
(** quat_graph.py:7-23 *)
Definition quat_graph (ypr : quat -> vec3) (fuel : nat) (draws : list (list (list R))) : res (sp_result RCost (list R)) :=
  data <- quat_columns ypr fuel draws ;; PyGraph.get_shortest_path (K := RCost) py_cost data.

(** ** tool_first_cc.py *)
(** planning.py:354-363 cart_to_joint_tool_first_cc: robot.links[-1].shape, an
    attribute that no Link has (robot.py:21-32) *)
Definition tool_first_cc (r : robot) : res (list (qent R)) := _ <- py_last (r_links r) ;; Raise AttributeError.
(** tool_first_cc.py:16-21 and path_on_table.py:24-29 the points of the line with free orientation *)
Definition free_line (N : nat) (draws : nat -> list (list R)) : list pathpt :=
  map (fun ip => Pipeline.PFree (snd ip) (draws (fst ip))) (combine (seq 0 N) (path_ori_free N)).
(** tool_first_cc.py:23-26 *)
Definition floor : coll := Coll [Shape 0.5 0.5 0.1] [pose_x 0 0.8 0 0].
(** tool_first_cc.py:40-53: None for "No path found" *)
Definition tool_first_script prim to32 (pq : pqueue RCost R) (ypr : quat -> vec3) (fuel : nat) (draws : nat -> list (list R)) : res (option (list (list R))) :=
  Q <- snd (kuka_columns prim to32 (pt_samples ypr fuel 1000) floor (free_line 5 draws) kuka_object) ;;
  if forallb (fun e => negb (Nat.eqb (qlen e) 0)) Q then
    r <- Planning.get_shortest_path 1 (K := RCost) rsq pq to32 Q "dijkstra" None ;;
    match r with GspOk rows _ => Ok (Some rows) | GspFail => Raise KeyError end
  else Ok None.

(** ** iterative_grid_refining.py *)
(** iterative_grid_refining.py:12-29: costs, number of times and the path; without
    success there is no "costs" *)
Definition refine_script prim to32 (pq : pqueue RCost R) (ypr : quat -> vec3) (fuel : nat) (near : option (nat -> mat3 -> R -> nat -> quat))
  (draws : nat -> list (list R)) : res (list RCost * nat * list (list R)) :=
  r <- snd (kuka_it_plan prim to32 (K := RCost) rsq pq (cur_samples ypr fuel near) (Some scene1) (free_line 15 draws) 500 5 kuka_object) ;;
  match r with ItFail => Raise KeyError | ItOk p _ costs _ nt => Ok (costs, nt, p) end.

(** ** follow_line_orientation_free.py, weld_circle.py *)
(** task.solve(robot, method="grid_incremental") of a loaded task and res["path"] *)
Definition incremental_script prim to32 (pq : pqueue RCost R) (fuel : nat) (ypr : quat -> vec3) (fuel' : nat) (src : nat -> list (list R)) (task : json) (k : kuka)
  : res (list (list R)) :=
  path <- parse_path task ;; scene <- parse_obstacles task ;;
  r <- snd (kuka_inc_plan prim to32 (K := RCost) rsq pq fuel (inc_samples ypr fuel' src) scene (as_path (fun _ => []) path) 50 1000 k) ;;
  match r with GspOk rows _ => Ok rows | GspFail => Raise KeyError end.
(** follow_line_orientation_free.py:10-20; the initial path set in lines 14-16 is not used by this method *)
Definition line_script prim to32 pq fuel ypr fuel' src : res (list (list R)) :=
  path <- parse_path line_orient_free ;; _ <- set_initial_path (length path) (ND1 [0.3; 0; 0; 0; 0; 0]) ;;
  incremental_script prim to32 pq fuel ypr fuel' src line_orient_free kuka_object.
(** weld_circle.py:15-16: the torch on the hand *)
Definition torch_kuka : kuka := let r := k_rob kuka_object in
  Kk (Rb (r_links r) (r_limits r) (r_base r) (Some torch) (r_tfb r) (r_mat r) (r_self r) (r_prio r)) (k_arm kuka_object) (k_wrist kuka_object).
(** weld_circle.py:19, 64, 71 *)
Definition weld_script prim to32 pq fuel ypr fuel' src : res (list (list R)) :=
  incremental_script prim to32 pq fuel ypr fuel' src small_passage_2 torch_kuka.
