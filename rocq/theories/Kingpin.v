(** * Model of the path and the scene of examples/kingpin.py (plotting left out).

    Numbers are exact reals; the number of path points N is a parameter where
    the code has the literal 10.  AxisAnglePt and FreeOrientationPt are imported
    there, their use is commented out. *)
From Coq Require Import Reals Lra List Bool Arith ZArith.
From Verif Require Import PyBase Mat Util Geometry Robot Ik Path Resources.
Import ListNotations.
Local Open Scope R_scope.

(** kingpin.py:10-14 *)
Definition kp_width : R := 0.1.
Definition kp_tickness : R := 0.01.
Definition kp_lenght : R := 0.5.
Definition kp_height : R := 0.05.
Definition kp_xpos : R := 0.8.
Definition kp_ypos : R := 0.
Definition kp_zpos : R := 0.1.
(** kingpin.py:23-24 before the offset is added *)
Definition kp_start : vec3 := V3 (kp_xpos + kp_width / 2 - kp_tickness) (kp_ypos - kp_lenght / 2) (kp_zpos + kp_tickness).
Definition kp_stop : vec3 := vadd kp_start (V3 0 kp_lenght 0).
(** kingpin.py:27 *)
Definition kp_offset : vec3 := V3 (-0.02 / sqrt 2) 0 (0.02 / sqrt 2).
(** kingpin.py:31, 35, 37-41 the body of the loop; the two TolerancedNumbers are
    made once before the loop, here for each point *)
Definition kp_point (s : R) : res eulerpt :=
  rz_tol <- new_tol (- PI / 2) (PI / 2) None 30 ;;
  ry_tol <- new_tol (PI / 2) PI (Some (PI * 3 / 4)) 20 ;;
  let pos := vadd (vscale (1 - s) (vadd kp_start kp_offset)) (vscale s (vadd kp_stop kp_offset)) in
  new_eulerpt [Fix (vx pos); Fix (vy pos); Fix (vz pos)] [Fix 0; Tol ry_tol; Tol rz_tol].
(** kingpin.py:22, 37-41 *)
Definition kp_path (N : nat) : res (list eulerpt) := mapM kp_point (linspace 0 1 N).
(** kingpin.py:48-78 *)
Definition kp_scene : coll :=
  Coll [Shape 0.5 0.5 0.1; Shape kp_width kp_lenght kp_tickness; Shape kp_tickness kp_lenght kp_width; Shape (kp_width / 2) (kp_lenght / 5) kp_height]
       [tf_at mid (V3 (kp_xpos - 0.20) kp_ypos (kp_zpos - 0.05));
        tf_at mid (V3 kp_xpos kp_ypos (kp_zpos + kp_tickness / 2));
        tf_at mid (V3 (kp_xpos + kp_width / 2 - kp_tickness / 2) kp_ypos (kp_zpos + kp_width / 2 + kp_tickness));
        tf_at mid (V3 (kp_xpos - kp_width / 4) kp_ypos (kp_zpos + kp_tickness + kp_height / 2))].
(** kingpin.py:6-7: the Kuka with the torch *)
Definition kp_robot : robot := let r := KukaG 0.18 0.6 0.62 0.115 in
  Rb (r_links r) (r_limits r) (r_base r) (Some torch) (r_tfb r) (r_mat r) (r_self r) (r_prio r).
