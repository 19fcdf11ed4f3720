(** * Property theorem C135: the path and the scene of examples/kingpin.py.

    [kp_path N]: the path with N points; [kp_seam N k]: the place on the inner edge
    of the two plates that point k belongs to; [kp_place N k]: the position of
    point k; [kp_sample N k i j]: the frame at point k with the i-th of 20 values of
    ry and the j-th of 30 values of rz.  [at_obstacle N k]: point k is beside the
    obstacle.  [clear_by d c x]: every point of c is at least d away from x.
    [aims_at T x]: x is on the ray from the origin of T along its z axis. *)
From Coq Require Import Reals Lra Lia List Arith.
From Verif Require Import PyBase Mat Util Geometry GeometryProofs Robot RobotProofs Path PathProofs Resources ResourcesProofs TaskProofs PipelineProofs Kingpin KingpinProofs.
Import ListNotations.
Local Open Scope R_scope.

(** C135: the path has N points with 600 samples each, at one position each ... *)
Theorem C135_path : forall N, exists l, kp_path N = Ok l /\ length l = N /\ forall k p, nth_error l k = Some p ->
  nominal_transform p = Ok (M4 (rot_xyz 0 (3 * PI / 4) 0) (kp_place N k) v0 1) /\
  exists ss, euler_samples p = Ok ss /\ length ss = 600%nat /\
  forall T, In T ss <-> exists i j, (i < 20)%nat /\ (j < 30)%nat /\
    T = M4 (rot_xyz 0 (PI / 2 + INR i / 19 * (PI / 2)) (- PI / 2 + INR j / 29 * PI)) (kp_place N k) v0 1.
Proof. exact kp_path_ok. Qed.
Print Assumptions C135_path.
(** C135: ... clear of the scene ... *)
Theorem C135_scene : forall y, in_coll kp_scene None y <->
  (0.35 <= vx y <= 0.85 /\ -0.25 <= vy y <= 0.25 /\ 0 <= vz y <= 0.1) \/
  (0.75 <= vx y <= 0.85 /\ -0.25 <= vy y <= 0.25 /\ 0.1 <= vz y <= 0.11) \/
  (0.84 <= vx y <= 0.85 /\ -0.25 <= vy y <= 0.25 /\ 0.11 <= vz y <= 0.21) \/
  (0.75 <= vx y <= 0.8 /\ -0.05 <= vy y <= 0.05 /\ 0.11 <= vz y <= 0.16).
Proof. exact in_kp_scene. Qed.
Print Assumptions C135_scene.
Theorem C135_clearance : forall N T, sample_of kp_path N T -> clear_by (0.02 / sqrt 2) kp_scene (pos T).
Proof. exact kp_clear. Qed.
Print Assumptions C135_clearance.
(** C135: ... the nominal frame aims at the seam, 2 cm away ... *)
Theorem C135_aim : forall N, exists l, kp_path N = Ok l /\ length l = N /\ forall k p, nth_error l k = Some p ->
  exists T, nominal_transform p = Ok T /\ vadd (pos T) (vscale 0.02 (col2 (rot T))) = kp_seam N k.
Proof. exact kp_aim. Qed.
Print Assumptions C135_aim.
(** C135: ... but none of the samples does, ... *)
Theorem C135_no_sample_aims : forall N T k, sample_of kp_path N T -> ~ aims_at T (kp_seam N k).
Proof. exact kp_no_aim. Qed.
Print Assumptions C135_no_sample_aims.
Theorem C135_into_corner : forall N T, sample_of kp_path N T -> vy (col2 (rot T)) = 0 /\ 0 <= vx (col2 (rot T)) /\ vz (col2 (rot T)) <= 0.
Proof. exact kp_into. Qed.
Print Assumptions C135_into_corner.
(** C135: ... beside the obstacle the flatter twelve of the twenty values of ry
    are rejected for every robot with the torch, ... *)
Theorem C135_flat_hits : forall prim r q N k i j, exact_prim prim -> good r -> joints_ok r -> solid r -> (1 <= ndof r <= length q)%nat -> r_tool r = Some torch ->
  snd (fk r q) = Ok (kp_sample N k i j) -> at_obstacle N k -> (i <= 11)%nat -> snd (robot_collision prim r q kp_scene) = Ok true.
Proof. exact kp_robot_hits. Qed.
Print Assumptions C135_flat_hits.
Example C135_reached : forall N k i j, let r := rebased kp_robot (reach (kp_sample N k i j)) in
  good r /\ joints_ok r /\ solid r /\ ndof r = 6%nat /\ r_tool r = Some torch /\ snd (fk r zeros) = Ok (kp_sample N k i j).
Proof. exact kp_case. Qed.
Example C135_beside : at_obstacle 10 4 /\ at_obstacle 10 5 /\ ~ at_obstacle 10 3.
Proof. unfold at_obstacle, par. cbn. lra. Qed.
(** C135: ... and the torch pointing down along the plates is free at every point. *)
Theorem C135_down_free : forall prim N k j F, exact_prim prim -> j = 0%nat \/ j = 29%nat -> rigid F -> tmul F (snd torch) = kp_sample N k 19 j ->
  is_in_collision prim (fst torch) kp_scene (Some F) None = false.
Proof. exact kp_down_free. Qed.
Print Assumptions C135_down_free.
Example C135_down_case : exists F, rigid F /\ tmul F (snd torch) = kp_sample 10 4 19 0.
Proof. exact kp_down_case. Qed.
