(** * Property theorems C108-C112: planning functions run on the bundled robots.

    [kuka_ok a1 a2 d4 d6 k]: k is a Kuka object with this link table; geometry,
    base, tool, caches and earlier calls are arbitrary.  [rail_ok]: the same for
    KukaOnRail.  [solid r]: base, tool and boxes are placed by rigid transforms.
    [exact_prim prim]: the pairwise box test answers whether two boxes share a
    point.  [pt_samples], [pt_discretise]: tp.get_samples(n, rep="transform") and
    tp.discretise().  [allowed tp T]: T meets the tolerances of tp.  [pt_ok n tp]:
    ordered tolerances, nonzero quaternion and axis, n random draws.
    [reaches a2 d4 r q T]: forward kinematics of q is T unless wrist or elbow is
    singular.  [clear r scene q]: the robot at q shares no point with the scene,
    nor with itself where that is checked.  [candidate]: a collision-free ik
    solution of a sample of the point.  to32 is the rounding to float32. *)
From Coq Require Import String List Arith Bool Lia Reals Lra ZArith.
From Verif Require Import PyBase Cost SpecPath GraphCommon CppGraph CppGraphProofs CppSearch CppMain CppExamples Mat Geometry GeometryProofs Robot RobotProofs Ik IkProofs KukaProofs RailProofs Path PathProofs Planning PlanningProofs PlanningCart Resources Pipeline PipelineProofs PipelineRail PipelineExamples.
Import ListNotations.
Local Open Scope R_scope.

(** C108: the columns of a Kuka are exactly the collision-free solutions of all samples, in order, whatever was called before. *)
Theorem C108_kuka_columns : forall prim to32 a1 a2 d4 d6, a2 * d4 <> 0 -> forall k, kuka_ok a1 a2 d4 d6 k -> forall samples scene path,
  snd (kuka_columns prim to32 samples scene path k) =
  (D <- mapM samples path ;; Ok (map (fun Ts => entry_of to32 (flat_map (kuka_free prim k scene) Ts)) D)).
Proof. exact kuka_columns_exact. Qed.
Print Assumptions C108_kuka_columns.
(** C108: planning leaves the robot as it was, up to cached link matrices. *)
Theorem C108_kuka_kept : forall prim to32 a1 a2 d4 d6, a2 * d4 <> 0 -> forall k, kuka_ok a1 a2 d4 d6 k -> forall samples scene path,
  kuka_ok a1 a2 d4 d6 (fst (kuka_columns prim to32 samples scene path k)) /\
  reset (k_rob (fst (kuka_columns prim to32 samples scene path k))) = reset (k_rob k).
Proof. exact kuka_columns_keep. Qed.
Print Assumptions C108_kuka_kept.
Example C108_example : kuka_ok 0.18 0.6 0.62 0.115 kuka_object. Proof. exact kuka_object_ok. Qed.

(** C109: a solution is kept exactly when the robot is clear of scene and itself. *)
Theorem C109_kept_iff_clear : forall prim r scene q, exact_prim prim -> good r -> joints_ok r -> (1 <= ndof r <= length q)%nat -> solid r -> rigid_coll scene ->
  (hit prim r scene q = false <-> clear r scene q).
Proof. exact free_iff_clear. Qed.
Print Assumptions C109_kept_iff_clear.
(** C109: each row of a plan is a rounded configuration that is clear and reaches an allowed frame, if not singular. *)
Theorem C109_kuka_plan_partial : forall prim to32 a1 a2 d4 d6, a2 * d4 <> 0 -> forall k, kuka_ok a1 a2 d4 d6 k ->
  forall (K : CostStruct) (sq_acc : K -> R -> R -> R -> K) pq ypr fuel n scene path method ow rows c,
  exact_prim prim -> solid (k_rob k) -> rigid_coll scene -> Forall (pt_ok n) path ->
  snd (kuka_plan prim to32 sq_acc pq (pt_samples ypr fuel n) scene path method ow k) = Ok (GspOk rows c) ->
  Forall2 (fun tp row => exists q T, row = map to32 q /\ allowed tp T /\ reaches a2 d4 (k_rob k) q T /\ clear (k_rob k) scene q) path rows.
Proof. exact @kuka_plan_sound. Qed.
Print Assumptions C109_kuka_plan_partial.
(** C109: refuted at the wrist singularity: the arm stretched ahead, the only planned configuration is half a turn off although the pose can be reached. *)
Theorem C109_singular_refuted : forall prim to32 pq ypr fuel scene, exact_prim prim -> c_s scene = [] -> rigid_coll scene -> exists p c F F',
  new_eulerpt [Fix 1.515; Fix 0; Fix 0] [Fix 0; Fix (PI / 2); Fix 0] = Ok p /\ pt_ok 1 (PEuler p) /\
  snd (kuka_plan prim to32 (K := RCost) rsq pq (pt_samples ypr fuel 1) scene [PEuler p] "bfs" None kuka_object) = Ok (GspOk [map to32 stretched] c) /\
  snd (fk (k_rob kuka_object) stretched) = Ok F /\ ~ allowed (PEuler p) F /\
  snd (fk (k_rob kuka_object) [0; 0; PI / 2; 0; 0; PI]) = Ok F' /\ allowed (PEuler p) F'.
Proof. exact plan_singular. Qed.
Print Assumptions C109_singular_refuted.
Example C109_example : solid (k_rob kuka_object) /\ clear (k_rob kuka_object) (Coll [] []) stretched /\ exact_prim box_test.
Proof. split; [exact kuka_object_solid|]. split; [apply stretched_clear; reflexivity|exact box_test_exact]. Qed.

(** C110: when every point has a sample reached by a clear configuration away from the singularities, the planner succeeds, at least cost over all candidates with "bfs". *)
Theorem C110_kuka_plan_found : forall prim to32 a1 a2 d4 d6, a2 * d4 <> 0 -> forall k, kuka_ok a1 a2 d4 d6 k -> forall scene samples path ow,
  exact_prim prim -> solid (k_rob k) -> rigid_coll scene -> path <> [] -> Forall (reachable a1 a2 d4 k scene samples) path ->
  forall pq, exists rows, let cost := walk_cost (K := RCost) (jcost (K := RCost) rsq (eff_weights 1 6 ow)) in
  snd (kuka_plan prim to32 (K := RCost) rsq pq samples scene path "bfs" ow k) = Ok (GspOk rows (cost rows)) /\
  Forall2 (fun tp row => exists q, candidate prim k scene samples tp q /\ row = map to32 q) path rows /\
  forall rows', Forall2 (fun tp row => exists q, candidate prim k scene samples tp q /\ row = map to32 q) path rows' -> cle (cost rows) (cost rows').
Proof. exact kuka_plan_complete. Qed.
Print Assumptions C110_kuka_plan_found.
Theorem C110_kuka_plan_dijkstra : forall prim to32 a1 a2 d4 d6, a2 * d4 <> 0 -> forall k, kuka_ok a1 a2 d4 d6 k -> forall scene samples path ow,
  exact_prim prim -> solid (k_rob k) -> rigid_coll scene -> path <> [] -> Forall (reachable a1 a2 d4 k scene samples) path ->
  forall pq, pq_ok pq -> exists rows, let cost := walk_cost (K := RCost) (jcost (K := RCost) rsq (eff_weights 1 6 ow)) in
  snd (kuka_plan prim to32 (K := RCost) rsq pq samples scene path "dijkstra" ow k) = Ok (GspOk rows (cost rows)) /\
  Forall2 (fun tp row => exists q, candidate prim k scene samples tp q /\ row = map to32 q) path rows.
Proof. exact kuka_plan_complete_dijkstra. Qed.
Print Assumptions C110_kuka_plan_dijkstra.
Example C110_example : forall ypr fuel n, exists p, reachable 0.18 0.6 0.62 (new_kuka 0.18 0.6 0.62 0.115) (Coll [] []) (pt_samples ypr fuel n) (PEuler p) /\ pt_ok n (PEuler p).
Proof. exact bent_reachable. Qed.

(** C111: cart_to_joint_simple on KukaOnRail: for each point the collision-free solutions of its last sample, over all rail positions. *)
Theorem C111_rail_columns : forall prim to32 a1 a2 d4 d6 rl, rail_ok a1 a2 d4 d6 rl -> forall disc scene path qf D,
  Forall2 (fun tp Ts => disc tp = Ok (map AFrame Ts) /\ Ts <> []) path D ->
  snd (rail_columns prim to32 disc scene path qf rl None) = Ok (map (fun Ts => entry_of to32 (flat_map (rail_free prim rl scene (last Ts eye4)) qf)) D).
Proof. exact rail_columns_exact. Qed.
Print Assumptions C111_rail_columns.
(** C111: each row of a plan starts with a given rail position, is clear and reaches an allowed frame, if not singular. *)
Theorem C111_rail_plan_partial : forall prim to32 rl, rail_ok 0.18 0.6 0.62 0.115 rl ->
  forall (K : CostStruct) (sq_acc : K -> R -> R -> R -> K) pq ypr fuel scene path qf method ow rows c,
  exact_prim prim -> solid (rl_rob rl) -> rigid_coll scene -> Forall disc_ok path ->
  snd (rail_plan prim to32 sq_acc pq (pt_discretise ypr fuel) scene path qf method ow rl) = Ok (GspOk rows c) ->
  Forall2 (fun tp row => exists q g T, row = map to32 q /\ In g qf /\ allowed tp T /\ rail_reaches (rl_rob rl) q g T /\ clear (rl_rob rl) scene q) path rows.
Proof. exact @rail_plan_sound. Qed.
Print Assumptions C111_rail_plan_partial.
Example C111_example : exists p, new_eulerpt [Fix 1; Fix 0; Tol (TN 0 2 1 3)] [Fix 0; Fix 0; Fix 0] = Ok p /\ disc_ok (PEuler p).
Proof. eexists. split; [reflexivity|]. split; [exists [Fix 1; Fix 0; Tol (TN 0 2 1 3)], [Fix 0; Fix 0; Fix 0]; reflexivity|]. cbn. split; repeat constructor; cbn; try lra; try lia. Qed.

(** C112: refuted: cart_to_joint_simple takes neither TolPositionPt nor AxisAnglePt nor FreeOrientationPt. *)
Theorem C112_point_classes_refuted : forall (O : Type) (get : O -> robot) put prim to32 ik ypr fuel scene tp path qf o,
  (exists p, tp = PPos p) \/ (exists p, tp = PAxis p) ->
  snd (simple_columns get put prim to32 ik (pt_discretise ypr fuel) scene (tp :: path) qf o None) = Raise AttributeError.
Proof. exact @simple_no_discretise. Qed.
Print Assumptions C112_point_classes_refuted.
Theorem C112_free_point_refuted : forall (O : Type) (get : O -> robot) put prim to32 ik ypr fuel scene p rnd path g qf o, pt_ok 100 (PFree p rnd) ->
  snd (simple_columns get put prim to32 ik (pt_discretise ypr fuel) scene (PFree p rnd :: path) (g :: qf) o None) = Raise ValueError.
Proof. exact @simple_free_point. Qed.
Print Assumptions C112_free_point_refuted.
(** C112: TolEulerPt yields frames that meet its tolerances. *)
Theorem C112_euler_partial : forall ypr fuel tp, disc_ok tp -> exists Ts, pt_discretise ypr fuel tp = Ok (map AFrame Ts) /\ Ts <> [] /\ forall T, In T Ts -> allowed tp T.
Proof. exact disc_allowed. Qed.
Print Assumptions C112_euler_partial.
Example C112_example : pt_ok 100 (PFree [0; 0; 0] (repeat [0; 0; 0] 100)).
Proof. split; [reflexivity|]. split; [rewrite repeat_length; apply le_n|]. apply Forall_forall. intros x H. apply repeat_spec in H. subst x. exists 0, 0, 0. split; auto. lra. Qed.
