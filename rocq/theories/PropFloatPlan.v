(** * Property theorem C153: a planning task of the Kuka in double precision.

    [fkuka_plan double_ik prim f32 sq_acc pq scene path method ow k]: PlanningTask.solve with
    "grid", the path points TolEulerPt, every number of sampling, inverse kinematics and
    collision checks a double, rounded after every operation, the rows then converted to
    float32.  [kuka_std k], [kuka_near]: C152.  [same_kuka k k']: every number of k' is that
    of k rounded, cached matrices and the order of the links aside.  [test_within prim tol],
    [robot_size], [coll_size], [shrink_robot], [clear_by]: C139.  [safe k tol scene q]: at q
    the robot is clear of itself and the scene after every box has been made smaller by
    3e-11 + tol.  [pt_small p]: bounds and values at most 5, at most 1e13 samples.
    [pt_fine k p]: such a point with ordered bounds, its poses within 3 of the base.
    [centre_err], [rho]: C152.  [ulp_bound] = 3e-7, [kuka_size]: C114. *)
From Coq Require Import String Reals Lra List Arith ZArith.
From Flocq Require Import Core.
From Verif Require Import PyBase Cost SpecPath GraphCommon CppGraph CppGraphProofs CppExamples Mat Geometry GeometryProofs Robot RobotProofs RobotForms Ik IkProofs KukaProofs Path PathProofs Planning PlanningProofs Pipeline PipelineProofs PipelineExamples Motion MotionKuka.
From Verif Require Import FloatFk FloatFkProofs FloatColl FloatCollProofs FloatIk FloatIkProofs FloatIkKuka FloatIkDouble FloatPlan FloatPlanProofs FloatPlanExamples.
Import ListNotations.
Local Open Scope R_scope.

(** C153: TolEulerPt.get_samples: no exception, as many samples as in exact arithmetic, in the
    same order, each rotation entry within 2110 u and each coordinate within 51 u. *)
Theorem C153_samples : forall A u eta g h, ik_ok A u eta g h -> 0 < u <= 1e-13 -> 0 <= eta <= u ^ 2 -> 0 <= g <= 8 * u -> 0 <= h <= u ->
  forall p, pt_small p -> exists Ts Ts', euler_samples p = Ok Ts /\ feuler_samples A p = Ok Ts' /\ Forall2 (tnear u 2110 51) Ts Ts'.
Proof. exact feuler_e. Qed.
Print Assumptions C153_samples.
(** C153: every row of a plan is the rounding of joint values q that are free of collisions to
    3e-11 + tol, its link points are where those of q are to a micrometre, and its pose is that
    of a permitted pose T as exactly as the sine of the fifth joint allows. *)
Theorem C153_plan : forall k, kuka_std k -> solid (k_rob k) -> robot_size 10 10 (k_rob k) -> forall prim tol, test_within prim tol -> 0 <= tol ->
  forall scene scene', rigid_coll scene -> coll_near u64 eta64 scene scene' -> coll_size 10 10 scene ->
  forall (K : CostStruct) (sq_acc : K -> R -> R -> R -> K) pq path method ow k' rows c, Forall (pt_fine k) path -> same_kuka k k' ->
  snd (fkuka_plan double_ik prim f32 sq_acc pq scene' path method ow k') = Ok (GspOk rows c) ->
  Forall2 (fun p row => exists q T, allowed (PEuler p) T /\
    (exists q1 q2 q3 q4 q5 q6 F, q = [q1; q2; q3; q4; q5; q6] /\ row = map f32 q /\ snd (fk (k_rob k) row) = Ok F /\
      forall s, 54000 * (2110 + 120) * u64 <= s <= Rabs (sin q5) -> forall x, len (vsub (tapply F x) (tapply T x)) <=
        centre_err u64 q3 + rho u64 2110 s * (0.615 + len x) + ulp_bound * (kuka_size 0.18 0.6 0.62 0.115 + 6 * (tip_len (k_rob k) + len x))) /\
    clear (shrink_robot (3e-11 + tol) (k_rob k)) (shrink_coll (3e-11 + tol) scene) q /\
    forall i x, len (vsub (tapply (frame (k_rob k) row i) x) (tapply (frame (k_rob k) q i) x)) <= ulp_bound * (kuka_size 0.18 0.6 0.62 0.115 + 6 * len x)) path rows.
Proof. exact (fun k KS So RSz prim tol TW T0 scene scene' RS SN SSz K => @plan_e k KS So RSz prim tol TW T0 scene scene' RS SN SSz K). Qed.
Print Assumptions C153_plan.
(** C153: the first part of the task raises nothing; a point one of whose samples is reached,
    with all that inverse kinematics may return for it clear by the margin, keeps a row; the
    robot can be used again. *)
Theorem C153_columns : forall k, kuka_std k -> solid (k_rob k) -> robot_size 10 10 (k_rob k) -> forall prim tol, test_within prim tol -> 0 <= tol ->
  forall scene scene', rigid_coll scene -> coll_near u64 eta64 scene scene' -> coll_size 10 10 scene ->
  forall path k', Forall (pt_fine k) path -> same_kuka k k' -> same_kuka k (fst (fkuka_columns double_ik prim f32 scene' path k')) /\
  exists data, snd (fkuka_columns double_ik prim f32 scene' path k') = Ok (map (PlanningCart.entry_of f32) data) /\
  Forall2 (fun p l => Forall (kept k tol scene p) l /\ (pt_easy k tol scene p -> l <> [])) path data.
Proof. exact columns_e. Qed.
Print Assumptions C153_columns.
(** C153: when every point has such a sample, a plan is found, the cheapest choice of rows. *)
Theorem C153_found : forall k, kuka_std k -> solid (k_rob k) -> robot_size 10 10 (k_rob k) -> forall prim tol, test_within prim tol -> 0 <= tol ->
  forall scene scene', rigid_coll scene -> coll_near u64 eta64 scene scene' -> coll_size 10 10 scene ->
  forall path ow k', Forall (pt_fine k) path -> Forall (pt_easy k tol scene) path -> path <> [] -> same_kuka k k' -> forall pq,
  exists data rows, let cost := walk_cost (K := RCost) (jcost (K := RCost) rsq (eff_weights 1 6 ow)) in
  snd (fkuka_columns double_ik prim f32 scene' path k') = Ok (arrays F32 6 data) /\
  snd (fkuka_plan double_ik prim f32 (K := RCost) rsq pq scene' path "bfs" ow k') = Ok (GspOk rows (cost rows)) /\
  Forall2 (fun col row => In row col) data rows /\ forall rows', Forall2 (fun col row => In row col) data rows' -> cle (cost rows) (cost rows').
Proof. exact plan_found. Qed.
Print Assumptions C153_found.
(** the bound of C153_plan for the flange of a robot without tool *)
Example C153_numbers : forall q3 q5, 0.01 <= Rabs (sin q5) -> 1e-3 <= Rabs (cos q3) ->
  centre_err u64 q3 + rho u64 2110 (Rabs (sin q5)) * (0.615 + 0) + ulp_bound * (kuka_size 0.18 0.6 0.62 0.115 + 6 * (0 + 0)) <= 1.4e-6 /\ 54000 * (2110 + 120) * u64 <= Rabs (sin q5).
Proof. exact plan_numbers. Qed.
(** the Kuka of the repository with its boxes, and a point of a path *)
Example C153_robot : kuka_std kuka_object /\ solid (k_rob kuka_object) /\ robot_size 10 10 (k_rob kuka_object) /\ same_kuka kuka_object (round_object kuka_object) /\ pt_fine kuka_object side_pt.
Proof.
  split; [exact object_std|]. split; [exact kuka_object_solid|]. split; [exact object_size|]. destruct object_angles. split; [apply round_object_same; auto using kukaG_good|apply side_fine; reflexivity].
Qed.
(** a plan, all hypotheses of C153_found met *)
Example C153_case : let k := new_kuka 0.18 0.6 0.62 0.115 in let scene := Coll [Shape 1 1 1] [M4 mid (V3 5 0 0) v0 1] in
  forall pq, exists rows c, snd (fkuka_plan double_ik box_test f32 (K := RCost) rsq pq (round_coll scene) [side_pt; side_pt] "bfs" None (round_object k)) = Ok (GspOk rows c).
Proof. exact bare_plan. Qed.
