(** * Closed form of the forward kinematics of the Puma. *)
From Coq Require Import Reals Lra List.
From Verif Require Import PyBase Mat Util UtilProofs Geometry GeometryProofs Robot RobotProofs RobotForms Puma PumaProofs.
Import ListNotations.
Local Open Scope R_scope.

(** half a turn about the x axis *)
Definition flip_x : mat3 := M3 1 0 0  0 (-1) 0  0 0 (-1).
(** the first two joints act as one turn about z, joints three and four as one turn
    about y, and the last two do not move the end effector *)
Definition puma_closed (a3 a4 d1 d3 d4 s q3 w q5 q6 : R) : mat4 :=
  let u := a3 * cos q3 + a4 * cos w in
  M4 (mmul (mmul (mmul (rot_z s) (rot_y w)) (mmul (rot_z (- q5)) (rot_y (- q6)))) flip_x)
     (V3 (cos s * u - sin s * (d3 + d4)) (sin s * u + cos s * (d3 + d4)) (d1 - a3 * sin q3 - a4 * sin w)) v0 1.
Ltac entries := munf; apply mat4_eq; [apply mat3_eq|apply vec3_eq| |]; cbn [rot pos brow bww vx vy vz m00 m01 m02 m10 m11 m12 m20 m21 m22]; try reflexivity; ring.
Lemma puma_arm a3 a4 d1 d3 d4 s q3 q4 : tmul (tmul (dhm 0 (- PI / 2) d1 s) (dhm a3 0 d3 q3)) (dhm a4 (- PI / 2) d4 q4) =
  M4 (mmul (mmul (rot_z s) (rot_y (q3 + q4))) flip_x) (pos (puma_closed a3 a4 d1 d3 d4 s q3 (q3 + q4) 0 0)) v0 1.
Proof.
  unfold puma_closed. cbn [pos]. chain. unfold flip_x, rot_z, rot_y. rewrite !cos_plus, !sin_plus.
  generalize (sin s) (cos s) (sin q3) (cos q3) (sin q4) (cos q4). intros. entries.
Qed.
Lemma puma_hand q5 q6 : tmul (dhm 0 (- PI / 2) 0 q5) (dhm 0 (PI / 2) 0 q6) = M4 (mmul (rot_z q5) (rot_y q6)) v0 v0 1.
Proof. chain. unfold rot_z, rot_y. generalize (sin q5) (cos q5) (sin q6) (cos q6). intros. entries. Qed.
Lemma flip_hand q5 q6 : mmul flip_x (mmul (rot_z q5) (rot_y q6)) = mmul (mmul (rot_z (- q5)) (rot_y (- q6))) flip_x.
Proof. unfold flip_x, rot_z, rot_y. rewrite !cos_neg, !sin_neg. generalize (sin q5) (cos q5) (sin q6) (cos q6). intros. munf. apply mat3_eq; cbn [m00 m01 m02 m10 m11 m12 m20 m21 m22]; ring. Qed.
Lemma puma_closed_fk a3 a4 d1 d3 d4 q1 q2 q3 q4 q5 q6 :
  snd (fk (Puma a3 a4 d1 d3 d4) [q1; q2; q3; q4; q5; q6]) = Ok (puma_closed a3 a4 d1 d3 d4 (q1 + q2) q3 (q3 + q4) q5 q6).
Proof.
  rewrite puma_fk. f_equal. unfold puma_form. rewrite (tmul_assoc _ (dhm 0 (- PI / 2) 0 q5)), puma_arm, puma_hand, tmulb, mmul_assoc, flip_hand, <- mmul_assoc.
  unfold puma_closed. cbn [pos]. f_equal. unfold mapply, vadd, v0. cbn [vx vy vz]. f_equal; ring.
Qed.
(** the end effector stays outside a cylinder around the first axis *)
Lemma puma_outside a3 a4 d1 d3 d4 q T : snd (fk (Puma a3 a4 d1 d3 d4) q) = Ok T -> length q = 6%nat ->
  (d3 + d4) ^ 2 <= vx (pos T) ^ 2 + vy (pos T) ^ 2 /\ Rabs (vz (pos T) - d1) <= Rabs a3 + Rabs a4.
Proof.
  intros E L. destruct q as [|q1 [|q2 [|q3 [|q4 [|q5 [|q6 [|]]]]]]]; try discriminate. rewrite puma_closed_fk in E. injection E as <-. unfold puma_closed. cbn [pos vx vy vz].
  set (u := a3 * cos q3 + a4 * cos (q3 + q4)). split.
  - replace ((cos (q1 + q2) * u - sin (q1 + q2) * (d3 + d4)) ^ 2 + (sin (q1 + q2) * u + cos (q1 + q2) * (d3 + d4)) ^ 2)
      with ((u ^ 2 + (d3 + d4) ^ 2) * ((sin (q1 + q2)) ^ 2 + (cos (q1 + q2)) ^ 2)) by ring.
    pose proof (sin2_cos2 (q1 + q2)) as H. unfold Rsqr in H. replace (sin (q1 + q2) ^ 2 + cos (q1 + q2) ^ 2) with 1 by (rewrite <- H; ring). pose proof (pow2_ge_0 u). lra.
  - replace (d1 - a3 * sin q3 - a4 * sin (q3 + q4) - d1) with (- (a3 * sin q3 + a4 * sin (q3 + q4))) by ring. rewrite Rabs_Ropp. eapply Rle_trans; [apply Rabs_triang|].
    rewrite !Rabs_mult. assert (B : forall x, Rabs (sin x) <= 1) by (intros x; apply Rabs_le, SIN_bound).
    pose proof (B q3). pose proof (B (q3 + q4)). pose proof (Rabs_pos a3). pose proof (Rabs_pos a4). nra.
Qed.
