(** * Property theorems C117-C120: Puma, the kinematics of the tests, pictures and animations.

    [fk_kuka]: the matrix written out in tests/kuka_forward_kinematics.py.
    [on_axis T p]: p lies on the z axis of T.  [frame r q i]: the pose of link i.
    [placed_all r q s T]: s is a box of base, link or tool and T its place in the
    world at q; [placed]: link or tool only.  [shows lines P]: the lines are
    exactly the edges of the boxes P.  [paired_robot r]: each shape has its
    transform.  [no_base r]: r without base geometry. *)
From Coq Require Import Reals Lra List Bool Arith Lia.
From Verif Require Import PyBase Mat Util Geometry GeometryProofs Robot RobotProofs PipelineProofs Puma PumaProofs Plot PlotProofs.
Import ListNotations.
Local Open Scope R_scope.

(** C117 *)
Theorem C117_kuka_oracle : forall a1 a2 d4 d6 q1 q2 q3 q4 q5 q6, snd (fk (Kuka a1 a2 d4 d6) [q1; q2; q3; q4; q5; q6]) = Ok (fk_kuka a1 a2 d4 d6 q1 q2 q3 q4 q5 q6).
Proof. exact oracle_fk. Qed.
Print Assumptions C117_kuka_oracle.

(** C118: refuted: the first two joints of the Puma turn about the same axis. *)
Theorem C118_puma_joints_refuted : forall a3 a4 d1 d3 d4 q1 q2 q3 q4 q5 q6 t,
  snd (fk (Puma a3 a4 d1 d3 d4) [q1 + t; q2 - t; q3; q4; q5; q6]) = snd (fk (Puma a3 a4 d1 d3 d4) [q1; q2; q3; q4; q5; q6]).
Proof. exact puma_redundant. Qed.
Print Assumptions C118_puma_joints_refuted.
(** C118: the last three axes meet in a point exactly when a4 = 0; the default is 0.0203. *)
Theorem C118_puma_wrist_partial : forall a3 a4 d1 d3 d4 q1 q2 q3 q4 q5 q6, let q := [q1; q2; q3; q4; q5; q6] in let r := Puma a3 a4 d1 d3 d4 in
  (exists p, on_axis (frame r q 2) p /\ on_axis (frame r q 3) p /\ on_axis (frame r q 4) p) <-> a4 = 0.
Proof. exact puma_wrist. Qed.
Print Assumptions C118_puma_wrist_partial.
(** C118: refuted: a collision check always raises, whatever would follow the loop over the links. *)
Theorem C118_puma_collision_refuted : forall prim rest a3 a4 d1 d3 d4 q scene, (6 <= length q)%nat ->
  snd (geoms_collision prim puma_geoms rest (Puma a3 a4 d1 d3 d4) q scene) = Raise TypeError.
Proof. exact puma_no_check. Qed.
Print Assumptions C118_puma_collision_refuted.
(** C118: with a collection for every link the same function is the check of every other robot (C75). *)
Theorem C118_puma_proper : forall prim r q scene,
  geoms_collision prim (map Proper (map l_geom (r_links r))) (after_links prim (map l_geom (r_links r)) scene) r q scene = robot_collision prim r q scene.
Proof. exact proper_check. Qed.
Print Assumptions C118_puma_proper.
(** with proper geometries the same function returns an answer *)
Example C118_example : snd (geoms_collision (fun _ _ _ _ _ _ => false) (repeat (Proper (Coll [] [])) 6) (fun _ _ => Ok false) (Puma 1 1 1 1 1) [0; 0; 0; 0; 0; 0] (Coll [] [])) = Ok false.
Proof. reflexivity. Qed.

(** C119: the robot as drawn ... *)
Theorem C119_plot_partial : forall r q, good r -> joints_ok r -> (1 <= ndof r <= length q)%nat -> r_base r = None \/ r_tfb r = eye4 ->
  exists lines, snd (robot_plot r q) = Ok lines /\ shows lines (placed_all r q).
Proof. exact robot_plot_eye. Qed.
Print Assumptions C119_plot_partial.
(** C119: ... is the robot that collision checks see (in_robot is what C109 is stated with) ... *)
Theorem C119_same_boxes : forall r q x, in_robot r q x <-> exists s T, placed_all r q s T /\ in_box s T x.
Proof. exact in_robot_placed. Qed.
Print Assumptions C119_same_boxes.
(** C119: ... except that the base is drawn without the base transform ... *)
Theorem C119_drawn : forall r q, good r -> joints_ok r -> (1 <= ndof r <= length q)%nat ->
  exists lines, snd (robot_plot r q) = Ok lines /\ shows lines (fun s T => (exists b, r_base r = Some b /\ member b s T) \/ placed r q s T).
Proof. exact robot_plot_all. Qed.
Print Assumptions C119_drawn.
(** C119: ... so a robot with a base away from the origin is not drawn where it is. *)
Theorem C119_base_refuted : exists lines, snd (robot_plot based [0]) = Ok lines /\ ~ shows lines (placed_all based [0]).
Proof. exact base_elsewhere. Qed.
Print Assumptions C119_base_refuted.
Example C119_example : good based /\ joints_ok based /\ (1 <= ndof based <= 1)%nat.
Proof. split; [apply based_good|]. split; [repeat constructor; discriminate|cbn; lia]. Qed.

(** C120: whatever frames were drawn before, frame k shows links and tool at joint vector k. *)
Theorem C120_animation : forall r q_path frames k q, good r -> joints_ok r -> paired_robot r -> Forall (fun q => (1 <= ndof r <= length q)%nat) q_path ->
  Forall (fun k => (k < length q_path)%nat) (frames ++ [k]) -> nth_error q_path k = Some q ->
  exists lines, snd (animate_path r q_path (frames ++ [k])) = Ok lines /\ snd (robot_plot (no_base r) q) = Ok (concat lines).
Proof. exact animate_frame. Qed.
Print Assumptions C120_animation.
Example C120_example : paired_robot based /\ exists lines, snd (animate_path based [[0]; [1]] ([0; 1] ++ [0])%nat) = Ok lines.
Proof.
  assert (P : paired_robot based) by (split; [repeat constructor|intros; discriminate]). split; auto.
  destruct (animate_frame based [[0]; [1]] [0; 1]%nat 0%nat [0]) as (l & E & _); eauto using based_good; try (repeat constructor; cbn; try discriminate; lia).
Qed.
