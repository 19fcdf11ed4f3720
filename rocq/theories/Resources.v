(** * Model of acrobotics/resources: the collision geometry of robots.py, and
    torch_model.py, workpiece_model.py and path_on_table.py (plotting left out).

    Numbers are exact reals; decimal literals are the decimal numbers.  The
    number of points N of the bundled paths is a parameter where the code has a
    literal, so the theorems hold for finer paths too.  The geometry of Puma is
    left out: its Collections are built from non-lists. *)
From Coq Require Import Reals Lra List Bool Arith ZArith.
From Verif Require Import PyBase Mat Util Geometry Robot Ik Path.
Import ListNotations.
Local Open Scope R_scope.

(** ** Link geometry *)
(** the geometry argument of each Link(...) of a constructor *)
Definition set_geom (r : robot) (gs : list coll) : robot :=
  set_links r (map (fun p => Lk (l_dh (fst p)) (l_jt (fst p)) (snd p) (l_T (fst p))) (combine (r_links r) gs)).
Definition coll1 (s : shape) (tf : mat4) : coll := Coll [s] [tf].
(** robots.py:12-24 *)
Definition planar_geom (a1 a2 a3 : R) : list coll :=
  [coll1 (Shape (- a1 / 2) 0.1 0.1) eye4; coll1 (Shape (- a2 / 2) 0.1 0.1) eye4; coll1 (Shape (- a3 / 2) 0.1 0.1) eye4].
Definition PlanarArmG (a1 a2 a3 : R) : robot := set_geom (PlanarArm a1 a2 a3) (planar_geom a1 a2 a3).
(** robots.py:30-42 and 48-60, the same boxes *)
Definition bar_geom : list coll := repeat (coll1 (Shape 1 0.1 0.1) eye4) 3.
Definition SphericalArmG (d2 : R) : robot := set_geom (SphericalArm d2) bar_geom.
Definition SphericalWristG (d3 : R) : robot := set_geom (SphericalWrist d3) bar_geom.
(** robots.py:96-108 *)
Definition anthro_geom (a2 a3 : R) : list coll :=
  [coll1 (Shape 0.1 0.3 0.3) (translation (-0.05) 0 0); coll1 (Shape a2 0.1 0.1) (translation (- a2 / 2) 0 0); coll1 (Shape a3 0.1 0.1) (translation (- a3 / 2) 0 0)].
Definition AnthropomorphicArmG (a2 a3 : R) : robot := set_geom (AnthropomorphicArm a2 a3) (anthro_geom a2 a3).
(** robots.py:168-180 *)
Definition arm2_geom (a1 a2 a3 : R) : list coll := [coll1 (Shape a1 0.1 0.1) eye4; coll1 (Shape a2 0.1 0.1) eye4; coll1 (Shape a3 0.1 0.1) eye4].
Definition Arm2G (a1 a2 a3 : R) : robot := set_geom (Arm2 a1 a2 a3) (arm2_geom a1 a2 a3).
(** robots.py:288-318; the boxes do not depend on the constructor arguments *)
Definition kuka_geom : list coll :=
  [coll1 (Shape 0.3 0.2 0.1) (pose_x 0 (-0.09) 0 0.05);
   coll1 (Shape 0.8 0.2 0.1) (pose_x 0 (-0.3) 0 (-0.05));
   coll1 (Shape 0.2 0.1 0.5) (pose_x 0 0 0.05 0.17);
   coll1 (Shape 0.1 0.2 0.1) (pose_x 0 0 0.1 0);
   coll1 (Shape 0.1 0.1 0.085) (pose_x 0 0 0 (0.085 / 2));
   coll1 (Shape 0.1 0.1 0.03) (pose_x 0 0 0 (- 0.03 / 2))].
Definition KukaG (a1 a2 d4 d6 : R) : robot := set_geom (Kuka a1 a2 d4 d6) kuka_geom.
(** robots.py:355-386 *)
Definition rail_geom : list coll := coll1 (Shape 0.2 0.2 0.1) (pose_x 0 0 0 (-0.15)) :: kuka_geom.
Definition KukaOnRailG (a1 a2 d4 d6 : R) : robot := set_geom (KukaOnRail a1 a2 d4 d6) rail_geom.

(** ** torch_model.py; the dimensions are parameters of the definitions below *)
(** torch_model.py:14-15 *)
Definition angle1 : R := 11.3 * PI / 180.
Definition angle2 : R := -31.5 * PI / 180.
(** torch_model.py:17-21 pos_data *)
Definition pos_data (i : nat) : vec3 :=
  match i with
  | 0%nat => V3 0.035 0 0 | 1%nat => V3 (-0.02) 0.15 0 | 2%nat => V3 0.085 0.075 0 | 3%nat => V3 0.15 0.15 0
  | _ => V3 0.25 (0.15 + sin angle2 * 0.05) 0
  end.
(** torch_model.py:23-27 *)
Definition torch_shapes : list shape :=
  [Shape 0.08 0.08 0.08; Shape 0.18 0.075 0.075; Shape 0.03 0.22 0.07; Shape 0.10 0.025 0.025; Shape 0.10 0.025 0.025].
Definition tf_at (A : mat3) (p : vec3) : mat4 := M4 A p v0 1.
(** torch_model.py:46-48, 64-65 *)
Definition tf_rotate : mat4 := tf_at (rot_z angle1) v0.
Definition tf_tool : mat4 := tf_at (mmul (rot_y (- PI / 2)) (rot_x (- PI / 2))) v0.
(** torch_model.py:32-42, 49-52, 59, 68-69 *)
Definition torch_tfs : list mat4 :=
  map (tmul tf_tool)
    [tf_at mid (pos_data 0); tmul tf_rotate (tf_at mid (pos_data 1)); tmul tf_rotate (tf_at mid (pos_data 2));
     tmul tf_rotate (tf_at mid (pos_data 3)); tmul tf_rotate (tf_at (rot_z angle2) (pos_data 4))].
(** torch_model.py:43-44, 53, 56, 67 *)
Definition tool_tip : mat4 :=
  let tip0 := tmul tf_rotate (tf_at (rot_z angle2) (vadd (pos_data 4) (mapply (rot_z angle2) (V3 (0.05 + 0.01) 0 0)))) in
  tmul tf_tool (M4 (mmul (rot tip0) (rot_y (PI / 2))) (pos tip0) (brow tip0) (bww tip0)).
(** torch_model.py:71 *)
Definition torch : coll * mat4 := (Coll torch_shapes torch_tfs, tool_tip).

(** ** workpiece_model.py *)
(** workpiece_model.py:11-14 *)
Definition wp_h : R := 1.0.
Definition wp_w : R := 0.8.
Definition wp_l : R := 1.6.
Definition wp_t : R := 0.01.
(** workpiece_model.py:16-31 *)
Definition workpiece : coll :=
  let h := wp_h in let w := wp_w in let l := wp_l in let t := wp_t in
  Coll [Shape l w t; Shape l w t; Shape (l - 2 * t) t h; Shape t w h; Shape t w h]
       [pose_x 0 0 0 (t / 2); pose_x 0 0 0 (h + 3 * t / 2); pose_x 0 0 (w / 2 - t / 2) (h / 2 + t);
        pose_x 0 (l / 2 - t / 2) 0 (h / 2 + t); pose_x 0 (- l / 2 + t / 2) 0 (h / 2 + t)].
(** workpiece_model.py:34-45 create_weld_line; rpy is a list of three numbers *)
Definition weld_point (p_start p_goal : vec3) (r0 r1 r2 : R) (p_offset : vec3) (par : R) : res eulerpt :=
  tol_rx <- new_tol (r0 - 0.5) (r0 + 0.5) None 3 ;;
  tol_rz <- new_tol (r2 - PI) (r2 + PI) None 10 ;;
  let p_i := vadd (vadd (vscale (1 - par) p_start) (vscale par p_goal)) p_offset in
  new_eulerpt [Fix (vx p_i); Fix (vy p_i); Fix (vz p_i)] [Tol tol_rx; Fix r1; Tol tol_rz].
Definition create_weld_line (p_start p_goal : vec3) (r0 r1 r2 : R) (p_offset : vec3) (N : nat) : res (list eulerpt) :=
  mapM (weld_point p_start p_goal r0 r1 r2 p_offset) (linspace 0 1 N).
(** workpiece_model.py:48-71; the code has N = 10, 6, 6 *)
Definition marge : R := 0.1.
Definition weld_path1 (N : nat) : res (list eulerpt) :=
  create_weld_line (V3 (- wp_l / 2 + wp_t + marge) (wp_w / 2 - wp_t) wp_t) (V3 (wp_l / 2 - wp_t - marge) (wp_w / 2 - wp_t) wp_t)
    (-3 * PI / 4) 0 PI (V3 0 (-0.04) 0.04) N.
Definition weld_path2 (N : nat) : res (list eulerpt) :=
  create_weld_line (V3 (- wp_l / 2 + wp_t) (- wp_w / 2 + marge) wp_t) (V3 (- wp_l / 2 + wp_t) (wp_w / 2 - wp_t - marge) wp_t)
    0 (-3 * PI / 4) (PI / 2) (V3 0.04 0 0.04) N.
Definition weld_path3 (N : nat) : res (list eulerpt) :=
  create_weld_line (V3 (wp_l / 2 - wp_t) (- wp_w / 2 + marge) wp_t) (V3 (wp_l / 2 - wp_t) (wp_w / 2 - wp_t - marge - 0.4) wp_t)
    0 (3 * PI / 4) (PI / 2) (V3 (-0.04) 0 0.04) N.

(** ** path_on_table.py *)
(** path_on_table.py:12-21; the code has N = 20 *)
Definition table_point (q1 : quat) (s : R) : res pospt :=
  let xi := 0.8 + 0.1 * sin (2 * PI * s) in
  xt <- new_tol (xi - 0.05) (xi + 0.05) None 10 ;;
  new_pospt [Tol xt; Fix (s * 0.2 + (1 - s) * (-0.2)); Fix 0.2] q1.
Definition path_pos_tol (N : nat) : res (list pospt) :=
  q1 <- quat_axis_angle (V3 0 1 0) PI ;; mapM (table_point q1) (linspace 0 1 N).
(** path_on_table.py:24-29: the position of each FreeOrientationPt; the code has N = 15 *)
Definition path_ori_free (N : nat) : list (list R) :=
  map (fun s => [0.8; s * 0.2 + (1 - s) * (-0.2); 0.2]) (linspace 0 1 N).
(** path_on_table.py:32-33, 45 *)
Definition table : shape := Shape 0.5 0.5 0.1.
Definition table_tf : mat4 := M4 mid (V3 0.80 0.00 0.12) v0 1.
Definition scene1 : coll := Coll [table] [table_tf].
(** path_on_table.py:49-57 *)
Definition scene2 : coll :=
  Coll [Shape 0.5 0.25 0.1; Shape 0.1 0.1 0.1; Shape 0.1 0.1 0.1]
       [M4 mid (V3 0.80 0.25 0.13) v0 1; M4 mid (V3 0.80 (-0.1) 0.32) v0 1; M4 mid (V3 0.80 (-0.1) 0.08) v0 1].
