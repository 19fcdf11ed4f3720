(** * Property theorems C113, C114: how far the robot moves with its joints.

    [len v]: length of v.  [move_bound ls q q' t]: sum over the joints of |qi - qi'|
    times 1 for a sliding joint, times the summed link lengths that follow plus t
    for a turning one.  [turn_bound]: the sum of |qi - qi'| over turning joints.
    [tip_len r]: distance of the tool tip from the last frame.  [f32]: rounding to
    binary32 (Flocq).  [ulp_bound] = 3e-7.  [kuka_size] = |a1| + 2|a2| + 3|d4| + 5|d6|.
    [near_pose]: row = map f32 q and each point x of the tool frame is within
    3e-7 (kuka_size + 6 (tip + |x|)) of T x, plus sqrt (2 |a2 d4| 1e-6) when the
    elbow is straight, unless the wrist is singular.  [near_clear]: q is clear and
    each point of each link for the row is within that distance of its place for q. *)
From Coq Require Import Reals Lra List Arith Lia.
From Verif Require Import PyBase Cost GraphCommon CppGraph Mat Util Geometry GeometryProofs Robot RobotProofs Ik IkProofs KukaProofs Path Planning Pipeline PipelineProofs PipelineExamples Motion MotionKuka.
Import ListNotations.
Local Open Scope R_scope.

(** C113: every point x of link i. *)
Theorem C113_link_points : forall r q q' i x, rigid (r_tfb r) -> length q = length q' ->
  len (vsub (tapply (frame r q i) x) (tapply (frame r q' i) x)) <= move_bound (firstn (S i) (r_links r)) q q' (len x).
Proof. exact frame_move. Qed.
Print Assumptions C113_link_points.
(** C113: every point x fixed to the tool. *)
Theorem C113_tool_points : forall r q q' x, good r -> joints_ok r -> rigid (r_tfb r) -> rigid_tool r -> (ndof r <= length q)%nat -> length q = length q' ->
  exists F F', snd (fk r q) = Ok F /\ snd (fk r q') = Ok F' /\ len (vsub (tapply F x) (tapply F' x)) <= move_bound (r_links r) q q' (tip_len r + len x).
Proof. exact fk_move. Qed.
Print Assumptions C113_tool_points.
(** C113: every direction v. *)
Theorem C113_directions : forall r q q' v, good r -> joints_ok r -> rigid (r_tfb r) -> rigid_tool r -> (ndof r <= length q)%nat -> length q = length q' ->
  exists F F', snd (fk r q) = Ok F /\ snd (fk r q') = Ok F' /\ len (vsub (mapply (rot F) v) (mapply (rot F') v)) <= turn_bound (r_links r) q q' * len v.
Proof. exact fk_turn. Qed.
Print Assumptions C113_directions.
(** the bound is attained by a sliding joint *)
Example C113_example : let r := robot_init [lp 0 0 0 0] in good r /\ joints_ok r /\ rigid (r_tfb r) /\
  move_bound (r_links r) [0] [1] 0 = 1 /\ vsub (tapply (frame r [1] 0) v0) (tapply (frame r [0] 0) v0) = V3 0 0 1.
Proof. exact slide_example. Qed.

(** C114: Kuka plans in float32. *)
Theorem C114_kuka_plan_rounded : forall a1 a2 d4 d6, a2 * d4 <> 0 -> forall k, kuka_ok a1 a2 d4 d6 k ->
  forall (K : CostStruct) prim (sq_acc : K -> R -> R -> R -> K) pq ypr fuel n scene path method ow rows c,
  exact_prim prim -> solid (k_rob k) -> rigid_coll scene -> Forall (pt_ok n) path ->
  snd (kuka_plan prim f32 sq_acc pq (pt_samples ypr fuel n) scene path method ow k) = Ok (GspOk rows c) ->
  Forall2 (fun tp row => exists q T, allowed tp T /\ near_pose a1 a2 d4 d6 k row q T /\ near_clear a1 a2 d4 d6 k scene row q) path rows.
Proof. exact @kuka_plan_rounded. Qed.
Print Assumptions C114_kuka_plan_rounded.
(** C114: with the default dimensions and no tool the flange centre is within 1.2e-6 m, or 0.9e-3 m more at a straight elbow. *)
Example C114_default_numbers : ulp_bound * (kuka_size 0.18 0.6 0.62 0.115 + 6 * (0 + 0)) <= 1.2 / 1000000 /\ sqrt (2 * Rabs (0.6 * 0.62) * tol) <= 0.9 / 1000.
Proof. exact default_numbers. Qed.
Example C114_example : kuka_ok 0.18 0.6 0.62 0.115 kuka_object /\ solid (k_rob kuka_object).
Proof. split; [exact kuka_object_ok|exact kuka_object_solid]. Qed.
