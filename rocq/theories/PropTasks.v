(** * Property theorems C156-C158: the scene and task files of examples/.

    [scene_x], [task_x], [small_passage] ...: the files, Tasks.v; [decimal_reader N]: N
    reads every decimal number as its value.  [fills c l]: c occupies exactly the boxes
    l, given by two opposite corners.  [points path n P]: path has n points and the k-th
    satisfies P k.  [on_line a b n k]: the k-th of n + 1 places from a to b.
    [around m w]: m with tolerance w on both sides, 10 samples.  [euler_at p rpy]: the
    TolEulerPt with that position and these angles.  [as_path draws path]: the points as
    the planner gets them; [allowed tp T]: T is one of the frames of tp.
    [armed r q]: a robot with the torch and enough joint values q.  [kp_scene],
    [kp_path]: the scene and path of kingpin.py.  [shifted e l l']: the faces of l' lie
    at most e beyond those of l.  [ulp]: 2^-53.  [box_kuka]: Kuka() with the torch.
    [passage_pts file pts]: the points of file with any unit quaternions as samples. *)
From Coq Require Import String Reals Lra List Arith.
From Verif Require Import PyBase Mat Util Geometry GeometryProofs Robot RobotProofs RobotForms Ik KukaProofs Path PathProofs Resources ResourcesProofs TaskProofs Extents Io Pipeline PipelineProofs Kingpin KingpinProofs Cost CppGraph Planning Dp DpProofs Examples ExamplesProofs OptimDual PipelineExamples Gui GuiProofs GuiKuka Urdf Tasks TasksProofs TorchProofs.
Import ListNotations.
Local Open Scope R_scope.

(** C156: the boxes of the five URDF scenes. *)
Theorem C156_scenes : forall N, decimal_reader N ->
  (exists c, import_doc N scene_circle = Ok c /\ fills c [(V3 0.55 (-0.25) (-0.03), V3 1.05 0.25 0.07)]) /\
  (exists c, import_doc N scene_industrial = Ok c /\ fills c
    [(V3 1 (-0.25) 0, V3 1.2 0.25 0.1); (V3 0.75 (-0.04166666666665) 0, V3 0.95 0.04166666666665 0.01); (V3 0.5 (-0.35) (-0.01), V3 1.2 0.35 0);
     (V3 0.7 0.15 0, V3 1 0.25 0.055); (V3 0.7 (-0.25) 0, V3 1 (-0.15) 0.055); (V3 0.5 (-0.25) 0, V3 0.7 0.25 0.1)]) /\
  (exists c, import_doc N scene_path_in_box = Ok c /\ forall x, in_coll c None x <-> in_coll workpiece None x) /\
  (exists c, import_doc N scene_small_passage = Ok c /\ fills c
    [(V3 0.6825 (-0.015) (-0.1), V3 0.7825 0.015 0.1); (V3 0.8175 (-0.015) (-0.1), V3 0.9175 0.015 0.1); (V3 0.7825 (-0.015) 0, V3 0.8175 0.015 0.1)]) /\
  (exists c, import_doc N scene_torch_obstacle = Ok c /\ fills c
    [(V3 (0.35 + ulp) (-0.25) 0, V3 (0.85 + ulp) 0.25 0.1); (V3 0.75 (-0.25) (0.1 + 0.1 * ulp), V3 0.85 0.25 (0.11 + 0.1 * ulp));
     (V3 (0.84 + ulp) (-0.25) (0.11 + 0.3 * ulp), V3 (0.85 + ulp) 0.25 (0.21 + 0.3 * ulp)); (V3 0.75 (-0.05) 0.11, V3 0.8 0.05 0.16)]).
Proof. exact scenes_fill. Qed.
Print Assumptions C156_scenes.
Example C156_scenes_example : decimal_reader decimals_N. Proof. exact decimals_read. Qed.
(** C156: the scene of the torch task is that of kingpin.py, moved by less than 2^-52. *)
Theorem C156_obstacle : forall N, decimal_reader N -> exists c l l', import_doc N scene_torch_obstacle = Ok c /\ fills kp_scene l /\ fills c l' /\ shifted ulp l l'.
Proof. exact obstacle_kingpin. Qed.
Print Assumptions C156_obstacle.
(** C156: scene and task of the small passage and of the circle, in two file formats, are the same. *)
Theorem C156_same : forall N, decimal_reader N -> import_doc N scene_small_passage = parse_obstacles small_passage_2 /\ import_doc N scene_circle = parse_obstacles weld_circle /\
  import_paths task_small_passage = (p <- parse_path small_passage_2 ;; Ok [p]) /\ import_paths task_circle = (p <- parse_path weld_circle ;; Ok [p]).
Proof. exact sum_passage. Qed.
Print Assumptions C156_same.
(** C156: the second small passage is the first, moved 0.8 forward. *)
Theorem C156_moved : exists path path2, parse_path small_passage = Ok path /\ parse_path small_passage_2 = Ok path2 /\
  Forall2 (fun tp tp2 => exists x y z, tp = Io.PFree [x; y; z] /\ tp2 = Io.PFree [0.8 + x; y; z]) path path2.
Proof. exact moved_passage. Qed.
Print Assumptions C156_moved.
(** C156: the paths in the files. *)
Theorem C156_line : exists path, parse_path line_orient_free = Ok path /\ points path 10 (fun k tp => tp = Io.PFree (on_line (V3 0.8 (-0.2) 0.2) (V3 0.8 0.2 0.2) 9 k)).
Proof. exact path_line. Qed.
Print Assumptions C156_line.
Theorem C156_passage : exists path, parse_path small_passage = Ok path /\ points path 15 (fun k tp => tp = Io.PFree (on_line (V3 0 (-0.1) 0) (V3 0 0.1 0) 14 k)).
Proof. exact path_passage. Qed.
Print Assumptions C156_passage.
Theorem C156_x_tol : exists path, parse_path line_x_tol = Ok path /\ points path 10 (fun k tp => exists p, tp = Io.PPos p /\ p_pos p = [around 0.8 0.2; Fix (-0.2 + INR k / INR 9 * 0.4); Fix 0.2] /\ qrot (p_quat p) = mid).
Proof. exact path_x_tol. Qed.
Print Assumptions C156_x_tol.
Theorem C156_circle : exists path, parse_path weld_circle = Ok path /\ points path 15 (fun k tp => tp = Io.PFree [0.8 - 0.2 * cos (INR k / INR 14 * (2 * PI)); -0.2 * sin (INR k / INR 14 * (2 * PI)); 0.1]).
Proof. exact path_circle. Qed.
Print Assumptions C156_circle.
Theorem C156_box : exists p, import_paths task_path_in_box = Ok [p] /\
  points p 10 (fun k => euler_at (on_line (V3 (-0.69) 0.35 0.05) (V3 0.69 0.35 0.05) 9 k) [around (-2.35619449) 0.5; Fix 0; around 3.14159265 3.1415]).
Proof. exact paths_box. Qed.
Print Assumptions C156_box.
Theorem C156_industrial : exists p1 p2 p3, import_paths task_industrial = Ok [p1; p2; p3] /\
  points p1 10 (fun k => euler_at (on_line (V3 0.98 (-0.1) 0.05) (V3 0.99 (-0.15) 0) 9 k) [Fix (3 * PI / 4); Fix (PI / 9); around 0 PI]) /\
  points p2 10 (fun k => euler_at (on_line (V3 0.99 (-0.15) 0) (V3 0.72 (-0.1) 0.05) 9 k) [Fix (-2.35619449); Fix 0; around 3.14159265 PI]) /\
  points p3 10 (fun k => euler_at (on_line (V3 0.71 (-0.15) 0) (V3 0.72 (-0.1) 0.05) 9 k) [Fix (3 * PI / 4); Fix (-20); around 0 PI]).
Proof. exact paths_industrial. Qed.
Print Assumptions C156_industrial.
Theorem C156_torch : exists p, import_paths task_torch_obstacle = Ok [p] /\
  points p 10 (fun k => euler_at (on_line (V3 0.82585786 (-0.25) 0.12414214) (V3 0.82585786 0.25 0.12414214) 9 k) [around 0 1.5707963267948966; Fix 2.356194490192345; around 0 1.5707963267948966]).
Proof. exact paths_obstacle. Qed.
Print Assumptions C156_torch.
(** C156: the three paths of the industrial task do not join: the weld starts where the
    approach ends, but it ends where the retreat ends, not where the retreat starts. *)
Theorem C156_not_joined : forall p1 p2 p3 d1 d2 d3 a9 w0 w9 r0 r9 A W0 W9 R0 R9, import_paths task_industrial = Ok [p1; p2; p3] ->
  nth_error (as_path d1 p1) 9 = Some a9 -> nth_error (as_path d2 p2) 0 = Some w0 -> nth_error (as_path d2 p2) 9 = Some w9 -> nth_error (as_path d3 p3) 0 = Some r0 -> nth_error (as_path d3 p3) 9 = Some r9 ->
  allowed a9 A -> allowed w0 W0 -> allowed w9 W9 -> allowed r0 R0 -> allowed r9 R9 ->
  pos A = pos W0 /\ pos W9 = pos R9 /\ pos W9 <> pos R0.
Proof. exact weld_joints. Qed.
Print Assumptions C156_not_joined.
(** C156: the pitch 20 of the approach is read in degrees, the pitch -20 of the retreat in radians. *)
Theorem C156_pitch_units : forall p1 p2 p3 d1 d3 i j a r A B, import_paths task_industrial = Ok [p1; p2; p3] -> nth_error (as_path d1 p1) i = Some a -> nth_error (as_path d3 p3) j = Some r -> allowed a A -> allowed r B ->
  vx (col2 (rot A)) = sin (PI / 9) /\ vx (col2 (rot B)) = sin (-20) /\ sin (-20) < -0.8 /\ - sin (PI / 9) > -0.4.
Proof. exact retract_pitch. Qed.
Print Assumptions C156_pitch_units.
(** C156: the torch file fixes the pitch which kingpin.py varies: no point of the file
    allows the straight-down rotation that kingpin.py samples. *)
Theorem C156_other_tilt : forall p draws k tp T', import_paths task_torch_obstacle = Ok [p] -> nth_error (as_path draws p) k = Some tp -> allowed tp T' ->
  exists T, sample_of kp_path 10 T /\ rot T <> rot T' /\ vz (col2 (rot T)) = -1 /\ 0.689 <= vx (col2 (rot T')).
Proof. exact obstacle_other_tilt. Qed.
Print Assumptions C156_other_tilt.
Example C156_allowed_example : forall draws, exists p1 p2 p3 tp T r q, import_paths task_industrial = Ok [p1; p2; p3] /\ nth_error (as_path draws p2) 0 = Some tp /\ allowed tp T /\ armed r q /\ snd (fk r q) = Ok T.
Proof. exact industrial_case. Qed.

(** C157: no robot with the torch reaches the end of the approach, the start of the weld
    or the start of the retreat of the industrial task without collision. *)
Theorem C157_industrial : forall prim N scene r q p1 p2 p3 draws tp T, exact_prim prim -> decimal_reader N -> import_doc N scene_industrial = Ok scene -> armed r q -> import_paths task_industrial = Ok [p1; p2; p3] ->
  nth_error (as_path draws p1) 9 = Some tp \/ nth_error (as_path draws p2) 0 = Some tp \/ nth_error (as_path draws p3) 0 = Some tp -> allowed tp T -> snd (fk r q) = Ok T ->
  snd (robot_collision prim r q scene) = Ok true.
Proof. exact industrial_read. Qed.
Print Assumptions C157_industrial.
Example C157_industrial_example : forall draws, exists p1 p2 p3 tp T r q, import_paths task_industrial = Ok [p1; p2; p3] /\ nth_error (as_path draws p2) 0 = Some tp /\ allowed tp T /\ armed r q /\ snd (fk r q) = Ok T.
Proof. exact industrial_case. Qed.
(** C157: nor the two middle points of the torch task. *)
Theorem C157_obstacle : forall prim N scene r q p draws k tp T, exact_prim prim -> decimal_reader N -> import_doc N scene_torch_obstacle = Ok scene -> armed r q -> import_paths task_torch_obstacle = Ok [p] ->
  k = 4%nat \/ k = 5%nat -> nth_error (as_path draws p) k = Some tp -> allowed tp T -> snd (fk r q) = Ok T -> snd (robot_collision prim r q scene) = Ok true.
Proof. exact obstacle_read. Qed.
Print Assumptions C157_obstacle.
Example C157_obstacle_example : forall draws, exists p tp T r q, import_paths task_torch_obstacle = Ok [p] /\ nth_error (as_path draws p) 4 = Some tp /\ allowed tp T /\ armed r q /\ snd (fk r q) = Ok T.
Proof. exact obstacle_case. Qed.
(** C157: a plan of the Kuka for one of these paths therefore passes a stretched elbow or a straight wrist. *)
Theorem C157_industrial_plan : forall prim to32 a1 a2 d4 d6 k N scene (K : CostStruct) (sq_acc : K -> R -> R -> R -> K) pq ypr fuel n p1 p2 p3 p draws method ow rows c,
  a2 * d4 <> 0 -> kuka_ok a1 a2 d4 d6 k -> exact_prim prim -> solid (k_rob k) -> r_tool (k_rob k) = Some torch -> decimal_reader N -> import_doc N scene_industrial = Ok scene ->
  import_paths task_industrial = Ok [p1; p2; p3] -> In p [p1; p2; p3] ->
  snd (kuka_plan prim to32 sq_acc pq (pt_samples ypr fuel n) scene (as_path draws p) method ow k) = Ok (GspOk rows c) ->
  exists i q1 q2 q3 q4 q5 q6, nth_error rows i = Some (map to32 [q1; q2; q3; q4; q5; q6]) /\ (cos q3 = 0 \/ sin q5 = 0).
Proof. exact @industrial_plan. Qed.
Print Assumptions C157_industrial_plan.
Theorem C157_obstacle_plan : forall prim to32 a1 a2 d4 d6 k N scene (K : CostStruct) (sq_acc : K -> R -> R -> R -> K) pq ypr fuel n p draws method ow rows c i,
  a2 * d4 <> 0 -> kuka_ok a1 a2 d4 d6 k -> exact_prim prim -> solid (k_rob k) -> r_tool (k_rob k) = Some torch -> decimal_reader N -> import_doc N scene_torch_obstacle = Ok scene ->
  import_paths task_torch_obstacle = Ok [p] -> i = 4%nat \/ i = 5%nat ->
  snd (kuka_plan prim to32 sq_acc pq (pt_samples ypr fuel n) scene (as_path draws p) method ow k) = Ok (GspOk rows c) ->
  exists q1 q2 q3 q4 q5 q6, nth_error rows i = Some (map to32 [q1; q2; q3; q4; q5; q6]) /\ (cos q3 = 0 \/ sin q5 = 0).
Proof. exact @obstacle_plan. Qed.
Print Assumptions C157_obstacle_plan.
(** C157: the Kuka at the origin stands in the box of path_in_box ... *)
Theorem C157_in_box : forall prim N scene r q, exact_prim prim -> decimal_reader N -> import_doc N scene_path_in_box = Ok scene -> good r -> solid r -> same_links r (KukaG 0.18 0.6 0.62 0.115) -> r_tfb r = eye4 -> (6 <= length q)%nat ->
  snd (robot_collision prim r q scene) = Ok true.
Proof. exact box_read. Qed.
Print Assumptions C157_in_box.
(** ... so the task editor, as path_in_box.py starts it, never has a solution unless the scene file is changed. *)
Theorem C157_editor : forall prim to32 N (k0 : kuka) (K : CostStruct) (sq_acc : K -> R -> R -> R -> K) pq ypr fuel scene_at paths_at wdir vs, exact_prim prim -> decimal_reader N ->
  kuka_ok 0.18 0.6 0.62 0.115 k0 -> solid (k_rob k0) -> same_links (k_rob k0) (KukaG 0.18 0.6 0.62 0.115) -> r_tfb (k_rob k0) = eye4 ->
  scene_at (wdir ++ "/scenes/path_in_box.urdf")%string = import_doc N scene_path_in_box -> (forall n, ~ In (SubmitFileName n) vs) -> e_solution (kuka_run prim to32 sq_acc pq ypr fuel scene_at paths_at (new_editor k0 wdir) vs) = None.
Proof. exact @box_editor_read. Qed.
Print Assumptions C157_editor.
Example C157_editor_example : kuka_ok 0.18 0.6 0.62 0.115 box_kuka /\ solid (k_rob box_kuka) /\ same_links (k_rob box_kuka) (KukaG 0.18 0.6 0.62 0.115) /\ r_tfb (k_rob box_kuka) = eye4 /\ r_tool (k_rob box_kuka) = Some torch.
Proof. exact box_case. Qed.

(** C158: every plan through the small passage holds the torch within about 42 degrees of upright in the middle ... *)
Theorem C158_upright : forall prim pts scene r, exact_prim prim -> passage_pts small_passage pts -> parse_obstacles small_passage = Ok scene -> pass_plan prim torch scene pts = Ok r ->
  exists q, nth_error (dp_path quat r) 7 = Some q /\ 0.745 <= vz (col2 (qrot q)).
Proof. exact passage_plan_up. Qed.
Print Assumptions C158_upright.
(** ... without such a sample there it raises ... *)
Theorem C158_none : forall prim pts scene pp, exact_prim prim -> passage_pts small_passage pts -> parse_obstacles small_passage = Ok scene -> nth_error pts 7 = Some pp ->
  (forall q, In q (pp_s pp) -> vz (col2 (qrot q)) < 0.745) -> exists e, pass_plan prim torch scene pts = Raise e.
Proof. exact passage_plan_none. Qed.
Print Assumptions C158_none.
(** ... and with an upright torch, turned so that it fits, among the samples of every point it succeeds without turning the torch at all. *)
Theorem C158_still : forall prim pts scene q, exact_prim prim -> passage_pts small_passage pts -> parse_obstacles small_passage = Ok scene -> upright_fit q -> Forall (fun pp => In q (pp_s pp)) pts ->
  exists r, pass_plan prim torch scene pts = Ok r /\ dp_success quat r = true /\ ExamplesProofs.turns (dp_path quat r) = 0 /\ length (dp_path quat r) = 15%nat /\ exists A, Forall (fun q => qrot q = A) (dp_path quat r).
Proof. exact passage_plan_still. Qed.
Print Assumptions C158_still.
Example C158_example : exists pts, passage_pts small_passage pts /\ Forall (fun pp => In q_id (pp_s pp)) pts /\ upright_fit q_id. Proof. exact passage_case. Qed.
(** C158: the same for a robot holding the torch in the moved passage. *)
Theorem C158_robot : forall prim N scene r q path draws tp T, exact_prim prim -> decimal_reader N -> import_doc N scene_small_passage = Ok scene -> armed r q -> import_paths task_small_passage = Ok [path] -> nth_error (as_path draws path) 7 = Some tp ->
  allowed tp T -> snd (fk r q) = Ok T -> snd (robot_collision prim r q scene) = Ok false -> 0.745 <= vz (col2 (rot T)).
Proof. exact passage_read. Qed.
Print Assumptions C158_robot.
Example C158_robot_example : forall draws, exists path tp r q T, import_paths task_small_passage = Ok [path] /\ nth_error (as_path draws path) 7 = Some tp /\ allowed tp T /\ armed r q /\ snd (fk r q) = Ok T /\
  forall prim, exact_prim prim -> snd (robot_collision prim r q (passage_boxes 0.8)) = Ok false.
Proof. exact passage_robot_case. Qed.
