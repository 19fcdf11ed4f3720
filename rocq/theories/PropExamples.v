(** * Property theorems C124-C127: samplers.py, examples/small_passage.py and
    examples/rotation_table.py. *)
From Coq Require Import List Arith Bool Reals.
From Verif Require Import PyBase Cost Dp Mat Util Geometry GeometryProofs Robot Ik RailProofs Path Planning PlanningCart Pipeline PipelineRail Examples ExamplesProofs ExamplesTable.
Import ListNotations.
Local Open Scope R_scope.

(** C124: refuted, the sampler never returns a quaternion: the name Quaternion
    is not imported, and the other branch of random_quaternion_near returns None. *)
Theorem C124_random_refuted : forall u1 u2 u3, random_quaternion global_Quaternion u1 u2 u3 = Raise NameError.
Proof. exact random_raises. Qed.
Print Assumptions C124_random_refuted.
Theorem C124_near_refuted : forall q distance u1 u2 u3,
  random_quaternion_near global_Quaternion q distance u1 u2 u3 = if Rle_dec (PI / 4) distance then Raise NameError else Ok None.
Proof. exact near_never. Qed.
Print Assumptions C124_near_refuted.
(** C124, the part that holds: with the name imported the formulas give a unit quaternion. *)
Theorem C124_imported_partial : forall u1 u2 u3, 0 <= u1 <= 1 -> exists q, random_quaternion (Ok Quat) u1 u2 u3 = Ok q /\ qnorm2 q = 1.
Proof. exact random_imported. Qed.
Print Assumptions C124_imported_partial.
Example C124_example : exists q, random_quaternion (Ok Quat) 0 0.25 0.5 = Ok q.
Proof. eexists. reflexivity. Qed.

(** C125: the cost of small_passage.py is half the angle of the rotation from
    one orientation to the other, and a metric on rotations. *)
Theorem C125_half_angle : forall u v, qnorm2 u = 1 -> qnorm2 v = 1 ->
  0 <= turn_cost u v <= PI / 2 /\ cos (2 * turn_cost u v) = (trace3 (mmul (mtr (qrot u)) (qrot v)) - 1) / 2.
Proof. exact (fun u v A B => conj (turn_range u v) (turn_angle u v A B)). Qed.
Print Assumptions C125_half_angle.
Theorem C125_metric : forall u v w, qnorm2 u = 1 -> qnorm2 v = 1 -> qnorm2 w = 1 ->
  (turn_cost u v = 0 <-> qrot u = qrot v) /\ turn_cost u v = turn_cost v u /\ turn_cost u w <= turn_cost u v + turn_cost v w.
Proof. exact (fun u v w A B C => conj (iff_sym (qrot_inj u v A B)) (conj (turn_sym u v) (turn_triangle u v w A B C))). Qed.
Print Assumptions C125_metric.
Example C125_example : qnorm2 q_id = 1. Proof. exact q_id_unit. Qed.

(** C126: the orientations small_passage.py chooses are samples that keep the
    tool clear of the scene, with the least total turning. *)
Theorem C126_optimal : forall prim tool scene, exact_prim prim -> rigid_coll (fst tool) -> rigid (snd tool) -> rigid_coll scene ->
  forall path r, Forall unit_samples path -> pass_plan prim tool scene path = Ok r ->
  Forall2 (clear_sample tool scene) path (dp_path _ r) /\ dp_length _ r = Some (turns (dp_path _ r)) /\
  forall qs, Forall2 (clear_sample tool scene) path qs -> turns (dp_path _ r) <= turns qs.
Proof. exact pass_sound. Qed.
Print Assumptions C126_optimal.
Theorem C126_poses : forall prim tool scene path r, exact_prim prim -> rigid_coll (fst tool) -> rigid (snd tool) -> rigid_coll scene -> Forall unit_samples path ->
  pass_plan prim tool scene path = Ok r ->
  Forall2 (fun tp F => rigid F /\ pos F = pp_p tp /\ (exists q, In q (pp_s tp) /\ rot F = qrot q) /\
    tmul (tmul F (tf_inverse (snd tool))) (snd tool) = F /\
    forall x, ~ (in_coll (fst tool) (Some (tmul F (tf_inverse (snd tool)))) x /\ in_coll scene None x)) path (pass_frames (dp_path _ r) path).
Proof. exact pass_poses. Qed.
Print Assumptions C126_poses.
Theorem C126_complete : forall prim tool scene, exact_prim prim -> rigid_coll (fst tool) -> rigid (snd tool) -> rigid_coll scene ->
  forall path, Forall unit_samples path -> (2 <= length path)%nat -> Forall (fun tp => exists q, clear_sample tool scene tp q) path ->
  exists r, pass_plan prim tool scene path = Ok r /\ dp_success _ r = true.
Proof. exact pass_complete. Qed.
Print Assumptions C126_complete.
(** when one orientation is sampled and free at every point, the tool does not turn *)
Theorem C126_still : forall prim tool scene, exact_prim prim -> rigid_coll (fst tool) -> rigid (snd tool) -> rigid_coll scene ->
  forall path r q, Forall unit_samples path -> pass_plan prim tool scene path = Ok r -> Forall (fun tp => clear_sample tool scene tp q) path ->
  turns (dp_path _ r) = 0 /\ exists A, Forall (fun q => qrot q = A) (dp_path _ r).
Proof. exact pass_still. Qed.
Print Assumptions C126_still.
Example C126_example : rigid_coll (fst ex_tool) /\ rigid (snd ex_tool) /\ rigid_coll ex_scene /\ Forall unit_samples ex_path.
Proof. exact ex_rigid. Qed.
Example C126_example_plan : forall prim, exact_prim prim -> exists r, pass_plan prim ex_tool ex_scene ex_path = Ok r /\ turns (dp_path _ r) = 0.
Proof. exact ex_plan. Qed.

(** C127: refuted, rotation_table.py does not plan for the workpiece turned by
    each of the table angles. *)
Theorem C127_angles_refuted : forall prim to32, exact_prim prim -> exists disc path angles, disc path = Ok [AFrame beside] /\
  snd (rail_table prim to32 disc (Coll [] []) [path] (map (fun a => [a]) angles) [10] table_robot (new_rail 0.18 0.6 0.62 0.115) None) <>
    Ok [entry_of to32 (flat_map (fun a => rail_free prim (new_rail 0.18 0.6 0.62 0.115) (Coll [] []) (tmul (pose_x a 0 0 0) beside) 10) angles)].
Proof. exact table_wrong. Qed.
Print Assumptions C127_angles_refuted.
(** C127, what it computes: the collision-free solutions for the last sample of
    each point, turned by the sum of the angles so far. *)
Theorem C127_sums_partial : forall prim to32 a1 a2 d4 d6 rl, rail_ok a1 a2 d4 d6 rl -> forall disc scene path qf angles D,
  Forall2 (fun tp Ts => disc tp = Ok (map AFrame Ts) /\ Ts <> []) path D ->
  snd (rail_table prim to32 disc scene path (map (fun a => [a]) angles) qf table_robot rl None) =
    Ok (map (fun Ts => entry_of to32 (flat_map (fun T => flat_map (rail_free prim rl scene T) qf) (table_poses angles (last Ts eye4)))) D).
Proof. exact rail_table_exact. Qed.
Print Assumptions C127_sums_partial.
Theorem C127_poses : forall angles T k, (k < length angles)%nat ->
  nth_error (table_poses angles T) k = Some (tmul (pose_x (0 + fold_right Rplus 0 (firstn (S k) angles)) 0 0 0) T).
Proof. exact (fun angles => turned_nth angles 0). Qed.
Print Assumptions C127_poses.
(** the table itself turns its top about the x axis *)
Theorem C127_table_fk : forall tb a qs, RobotProofs.good tb -> RobotProofs.reset tb = RobotProofs.reset table_robot -> snd (fk tb (a :: qs)) = Ok (pose_x a 0 0 0).
Proof. exact table_fk. Qed.
Print Assumptions C127_table_fk.
(** its top is a plate of 10 by 10 by 2 cm below the origin, turned by the joint value *)
Theorem C127_table_top : forall a x, in_coll table_coll (Some (RobotProofs.frame table_robot [a] 0)) x <->
  exists u v w, Rabs u <= 0.05 /\ Rabs v <= 0.05 /\ - 0.02 <= w <= 0 /\ x = tapply (pose_x a 0 0 0) (V3 u v w).
Proof. exact table_top. Qed.
Print Assumptions C127_table_top.
Example C127_example : RobotProofs.good table_robot. Proof. exact table_good. Qed.
