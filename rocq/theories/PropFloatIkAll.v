(** * Property theorem C154: inverse kinematics and planning of the Kuka in double precision lose
    no solution that is away from the singularities.

    [fkuka_ik], [fkuka_columns], [fkuka_plan], [kuka_std], [kuka_near], [same_kuka], [tnear],
    [pt_fine], [kept], [clear_by], [robot_size], [test_within]: C152, C153, C139.
    [anear e a b]: the angles have sines and cosines within e.
    [regular m1 m3 w m5 q]: the wrist is at least m1 off the first axis, the cosine of the third
    joint is at least m3 in size, the squared distance of the wrist from the second axis is at
    least w, the sine of the fifth joint at least m5 in size.  [wdir u m1 m3 w] = 1.9e6 u / m1 + 1.97e8 u / (m3 w): the error of the
    orientation of the wrist.  [turn_err] = 12.5 wdir / m5.  [kuka_size]: C114. *)
From Coq Require Import String Reals Lra List Arith ZArith.
From Flocq Require Import Core.
From Verif Require Import PyBase Cost SpecPath GraphCommon CppGraph CppGraphProofs CppExamples Mat Geometry GeometryProofs Robot RobotProofs RobotForms Ik IkProofs KukaProofs Path PathProofs Planning PlanningProofs Pipeline PipelineProofs PipelineExamples Motion MotionKuka.
From Verif Require Import FloatFk FloatFkProofs FloatColl FloatCollProofs FloatIk FloatIkProofs FloatIkKuka FloatIkDouble FloatPlan FloatPlanProofs FloatPlanExamples FloatIkAll FloatPlanAll FloatPlanAllExamples.
Import ListNotations.
Local Open Scope R_scope.

(** C154: joint values q that reach T exactly and are away from the singularities: the rounded
    inverse kinematics, given T rounded, succeeds and returns a row near q. *)
Theorem C154_rows : forall A u eta g h, ik_ok A u eta g h -> 0 < u <= 1e-13 -> u <= 2e-16 -> 0 <= eta <= u ^ 2 -> 0 <= g <= 8 * u -> 0 <= h <= u ->
  forall kp kq, 2 <= kp <= 2300 -> 3 <= kq <= 5000 -> forall m1 m3 w m5, 0.01 <= m1 <= 1 -> 0.01 <= m3 <= 1 -> 0.01 <= w <= 1 -> 0.01 <= m5 <= 1 ->
  forall k k' T T' q, kuka_std k -> kuka_near u eta k k' -> rigid T -> len (vsub (pos T) (pos (r_tfb (k_rob k)))) <= 3 -> tnear u kp kq T T' ->
  snd (fk (k_rob k) q) = Ok T ->
  (exists q1 q2 q3 q4 q5 q6, q = [q1; q2; q3; q4; q5; q6] /\
    m1 <= Rabs (0.18 + 0.6 * cos q2 + 0.62 * sin (q2 + q3)) /\ m3 <= Rabs (cos q3) /\ w <= 0.7444 + 0.744 * sin q3 /\ m5 <= Rabs (sin q5)) ->
  exists sols p, snd (fkuka_ik A k' T') = Ok (IkOk (Own sols)) /\ In p sols /\
    exists p1 p2 p3 p4 p5 p6 q1 q2 q3 q4 q5 q6, p = [p1; p2; p3; p4; p5; p6] /\ q = [q1; q2; q3; q4; q5; q6] /\
    anear (5.71e5 * (u / m1)) p1 q1 /\ anear (2.6e7 * (u / (m3 * w))) p2 q2 /\ anear (6.7e6 * (u / m3)) p3 q3 /\
    anear (3.1 * (wdir u m1 m3 w / m5)) p4 q4 /\ anear (7.3 * wdir u m1 m3 w) p5 q5 /\ anear (3.1 * (wdir u m1 m3 w / m5)) p6 q6.
Proof. exact kuka_all. Qed.
Print Assumptions C154_rows.
(** C154: in angles: whole turns aside, no joint of such a row is further than turn_err from q. *)
Theorem C154_angles : forall m1 m3 w m5, 0.01 <= m1 <= 1 -> 0.01 <= m3 <= 1 -> 0.01 <= w <= 1 -> 0.01 <= m5 <= 1 ->
  forall p q, near_row u64 m1 m3 w m5 p q ->
  exists p', Forall2 (fun a b => exists n : Z, a = b + 2 * IZR n * PI) p p' /\ Forall2 (fun x y => Rabs (x - y) <= 12.5 * (wdir u64 m1 m3 w / m5)) p' q.
Proof. exact near_turn. Qed.
Print Assumptions C154_angles.
(** C154: a column of the planning task has a row near every solution q of every sample T of its
    point that is away from the singularities and from all that it could collide with. *)
Theorem C154_columns : forall k, kuka_std k -> solid (k_rob k) -> robot_size 10 10 (k_rob k) -> forall prim tol, test_within prim tol -> 0 <= tol ->
  forall scene scene', rigid_coll scene -> coll_near u64 eta64 scene scene' -> coll_size 10 10 scene ->
  forall m1 m3 w m5, 0.01 <= m1 <= 1 -> 0.01 <= m3 <= 1 -> 0.01 <= w <= 1 -> 0.01 <= m5 <= 1 -> forall D L, 0 <= D + L -> robot_size D L (k_rob k) ->
  forall path k', Forall (pt_fine k) path -> same_kuka k k' ->
  exists data, snd (fkuka_columns double_ik prim f32 scene' path k') = Ok (map (PlanningCart.entry_of f32) data) /\
  Forall2 (fun p l => Forall (kept k tol scene p) l /\
    forall Ts T q, euler_samples p = Ok Ts -> In T Ts ->
      snd (fk (k_rob k) q) = Ok T /\ regular m1 m3 w m5 q /\
      clear_by (3e-11 + tol + 2 * (turn_err u64 m1 m3 w m5 * (kuka_size 0.18 0.6 0.62 0.115 + 6 * (D + L)))) (k_rob k) scene q ->
      exists q', In q' l /\ near_row u64 m1 m3 w m5 q' q) path data.
Proof. exact columns_all. Qed.
Print Assumptions C154_columns.
(** C154: with one such solution at every point a plan is found, the cheapest choice of rows of
    those columns. *)
Theorem C154_found : forall k, kuka_std k -> solid (k_rob k) -> robot_size 10 10 (k_rob k) -> forall prim tol, test_within prim tol -> 0 <= tol ->
  forall scene scene', rigid_coll scene -> coll_near u64 eta64 scene scene' -> coll_size 10 10 scene ->
  forall m1 m3 w m5, 0.01 <= m1 <= 1 -> 0.01 <= m3 <= 1 -> 0.01 <= w <= 1 -> 0.01 <= m5 <= 1 -> forall D L, 0 <= D + L -> robot_size D L (k_rob k) ->
  forall path ow k', Forall (pt_fine k) path ->
  Forall (fun p => exists Ts T q, euler_samples p = Ok Ts /\ In T Ts /\ snd (fk (k_rob k) q) = Ok T /\ regular m1 m3 w m5 q /\
    clear_by (3e-11 + tol + 2 * (turn_err u64 m1 m3 w m5 * (kuka_size 0.18 0.6 0.62 0.115 + 6 * (D + L)))) (k_rob k) scene q) path ->
  path <> [] -> same_kuka k k' -> forall pq,
  exists data rows, let cost := walk_cost (K := RCost) (jcost (K := RCost) rsq (eff_weights 1 6 ow)) in
  snd (fkuka_columns double_ik prim f32 scene' path k') = Ok (arrays F32 6 (map (map (map f32)) data)) /\ Forall2 (full k tol scene m1 m3 w m5 D L) path data /\
  snd (fkuka_plan double_ik prim f32 (K := RCost) rsq pq scene' path "bfs" ow k') = Ok (GspOk rows (cost rows)) /\
  Forall2 (fun col row => In row (map (map f32) col)) data rows /\
  forall rows', Forall2 (fun col row => In row (map (map f32) col)) data rows' -> cle (cost rows) (cost rows').
Proof. exact plan_all. Qed.
Print Assumptions C154_found.
(** the joint values [0; 0; 0; pi/2; pi/2; 0] of the Kuka, and the bounds there *)
Example C154_numbers : regular 0.7 0.9 0.7 0.9 side_joints /\ turn_err u64 0.7 0.9 0.7 0.9 <= 6e-7 /\ 2 * sway 0.7 0.9 0.7 0.9 0.8 0.6 <= 2e-5.
Proof. split; [exact side_regular|]. pose proof side_err. split; lra. Qed.
(** the Kuka of the repository with its boxes, its own links not compared, a box in the scene:
    a plan is found, both columns with a row near these joint values *)
Example C154_case : forall pq, exists data rows c,
  snd (fkuka_columns double_ik box_test f32 (round_coll far_box) [side_pt; side_pt] (round_object shop)) = Ok (arrays F32 6 (map (map (map f32)) data)) /\
  Forall (fun l => exists q, In q l /\ near_row u64 0.7 0.9 0.7 0.9 q side_joints) data /\
  snd (fkuka_plan double_ik box_test f32 (K := RCost) rsq pq (round_coll far_box) [side_pt; side_pt] "bfs" None (round_object shop)) = Ok (GspOk rows c).
Proof. exact shop_plan. Qed.
