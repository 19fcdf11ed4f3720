(** * Property theorems C45 and C118: closed form and reach of the Puma (robots.py:412-441). *)
From Coq Require Import Reals Lra List.
From Verif Require Import PyBase Mat Util Geometry Robot RobotForms Puma PumaForm.
Import ListNotations.
Local Open Scope R_scope.

(** C45: the Puma: a turn about z by q1 + q2, a planar arm with two parallel joints, and two joints that only turn the hand. *)
Theorem C45_puma : forall a3 a4 d1 d3 d4 q1 q2 q3 q4 q5 q6, let s := q1 + q2 in let w := q3 + q4 in let u := a3 * cos q3 + a4 * cos w in
  snd (fk (Puma a3 a4 d1 d3 d4) [q1; q2; q3; q4; q5; q6]) = Ok (
  M4 (mmul (mmul (mmul (rot_z s) (rot_y w)) (mmul (rot_z (- q5)) (rot_y (- q6)))) (M3 1 0 0  0 (-1) 0  0 0 (-1)))
     (V3 (cos s * u - sin s * (d3 + d4)) (sin s * u + cos s * (d3 + d4)) (d1 - a3 * sin q3 - a4 * sin w)) v0 1).
Proof. exact puma_closed_fk. Qed.
Print Assumptions C45_puma.

(** C118: no configuration brings the hand nearer to the first axis than d3 + d4, or further from height d1 than a3 + a4. *)
Theorem C118_puma_cylinder : forall a3 a4 d1 d3 d4 q T, snd (fk (Puma a3 a4 d1 d3 d4) q) = Ok T -> length q = 6%nat ->
  (d3 + d4) ^ 2 <= vx (pos T) ^ 2 + vy (pos T) ^ 2 /\ Rabs (vz (pos T) - d1) <= Rabs a3 + Rabs a4.
Proof. exact puma_outside. Qed.
Print Assumptions C118_puma_cylinder.
(** both bounds are attained *)
Example C118_cylinder_example : exists T, snd (fk (Puma 1 1 2 3 4) [0; 0; PI / 2; 0; 0; 0]) = Ok T /\ (3 + 4) ^ 2 = vx (pos T) ^ 2 + vy (pos T) ^ 2 /\ Rabs (vz (pos T) - 2) = 2.
Proof.
  eexists. split; [apply puma_closed_fk|]. unfold puma_closed. cbn [pos vx vy vz]. rewrite !Rplus_0_r, cos_PI2, sin_PI2, cos_0, sin_0. split; [ring|].
  replace (2 - 1 * 1 - 1 * 1 - 2) with (- 2) by ring. rewrite Rabs_left; lra.
Qed.
