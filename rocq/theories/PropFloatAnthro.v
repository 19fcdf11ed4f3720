(** * Property theorems C172: inverse kinematics of the AnthropomorphicArm in floating point.

    [fanthro_ik A r' T]: AnthropomorphicArm.ik with a rounding of the arithmetic A after every
    operation; [ik_ok], [robot_near] as in C152: error bounds of A, and a robot r' whose numbers
    are those of r rounded.  The robot has the default lengths a2 = a3 = 1. *)
From Coq Require Import Reals Lra List.
From Verif Require Import PyBase Mat Geometry Robot RobotProofs Ik IkProofs KukaProofs Motion FloatFk FloatFkProofs FloatIk FloatIkProofs FloatIkDouble FloatAnthro FloatAnthroProofs.
Import ListNotations.
Local Open Scope R_scope.

(** C172: no exception; failure only for a point that no joint angles reach; four rows; each
    reaches the target to 1.1e7 roundoffs, or to 2.4e-3 when the elbow is set straight, which
    happens only when its cosine is within 1.4e-6 of 1 or -1. *)
Theorem C172_ik : forall A u eta g h, ik_ok A u eta g h -> 0 < u <= 1e-13 -> 0 <= eta <= u ^ 2 ->
  forall r r' T, like r (AnthropomorphicArm 1 1) -> r_tfb r = eye4 -> r_tool r = None -> robot_near u eta r r' ->
  Rabs (vx (pos T)) <= 4 -> Rabs (vy (pos T)) <= 4 -> Rabs (vz (pos T)) <= 4 ->
  (fanthro_ik A r' T = Ok IkFail /\ forall q1 q2 q3 F, snd (fk r [q1; q2; q3]) = Ok F -> pos F <> pos T) \/
  exists sols, fanthro_ik A r' T = Ok (IkOk sols) /\ length sols = 4%nat /\
    forall q, In q sols -> exists q1 q2 q3 F, q = [q1; q2; q3] /\ snd (fk r q) = Ok F /\
      ((1.1e-3 <= Rabs (sin q3) /\ len (vsub (pos F) (pos T)) <= 1.1e7 * u) \/
       (Rabs (sin q3) <= 5 * u /\ len (vsub (pos F) (pos T)) <= 2.4e-3 /\ 1 - 1.4e-6 <= Rabs ((norm2 (pos T) - 2) / 2))).
Proof. exact fanthro_sound. Qed.
Print Assumptions C172_ik.
(** C172: the four rows are the four branches: the first joint faces the target in two rows and turns
    its back to it in the other two, each time once with the elbow bent either way. *)
Theorem C172_branches : forall A u eta g h, ik_ok A u eta g h -> 0 < u <= 1e-13 -> 0 <= eta <= u ^ 2 ->
  forall r r' T, like r (AnthropomorphicArm 1 1) -> robot_near u eta r r' -> Rabs (vx (pos T)) <= 4 -> Rabs (vy (pos T)) <= 4 -> Rabs (vz (pos T)) <= 4 ->
  forall sols, fanthro_ik A r' T = Ok (IkOk sols) -> let L := sqrt (vx (pos T) ^ 2 + vy (pos T) ^ 2) in
  exists t1 t1' b1 b2 b3 b4 t3 t3', sols = [[t1; b1; t3]; [t1; b2; t3']; [t1'; b3; t3]; [t1'; b4; t3']] /\
    Rabs (vx (pos T) - L * cos t1) <= 4 * u * L /\ Rabs (vy (pos T) - L * sin t1) <= 4 * u * L /\ Rabs (vx (pos T) + L * cos t1') <= 4 * u * L /\ Rabs (vy (pos T) + L * sin t1') <= 4 * u * L /\
    Rabs (cos t3' - cos t3) <= 8 * u /\ Rabs (sin t3' + sin t3) <= 8 * u /\ - (5 * u) <= sin t3 /\
    (Rabs ((norm2 (pos T) - 2) / 2) <= 1 - 1.5e-6 -> 1.1e-3 <= sin t3).
Proof. exact fanthro_branches. Qed.
Print Assumptions C172_branches.
(** C172: the second case is no artefact of the proof: the point 1/1024 m from the shoulder can be
    reached exactly, yet every row returned misses it by 0.9 mm. *)
Theorem C172_folded : forall A u eta g h, ik_ok A u eta g h -> 0 < u <= 1e-13 -> 0 <= eta <= u ^ 2 ->
  forall r r' T, like r (AnthropomorphicArm 1 1) -> r_tfb r = eye4 -> r_tool r = None -> robot_near u eta r r' -> pos T = V3 (/ 1024) 0 0 ->
  (exists q1 q2 q3 F, snd (fk r [q1; q2; q3]) = Ok F /\ pos F = pos T) /\
  exists sols, fanthro_ik A r' T = Ok (IkOk sols) /\ length sols = 4%nat /\
    forall q, In q sols -> exists F, snd (fk r q) = Ok F /\ 9e-4 <= len (vsub (pos F) (pos T)).
Proof. exact fanthro_folded. Qed.
Print Assumptions C172_folded.
(** C172: what tests/test_robot.py:240-249 asserts, fk then ik then fk in double precision: ik
    succeeds for all joint values, and every row gives the position back to 1.5e-9 unless the
    elbow is stretched or folded. *)
Theorem C172_roundtrip : forall r r' q1 q2 q3, like r (AnthropomorphicArm 1 1) -> r_tfb r = eye4 -> r_tool r = None -> robot_near u64 eta64 r r' ->
  let (rob1, T1) := ffk double r' [q1; q2; q3] in
  robot_near u64 eta64 r rob1 /\ exists T1' sols, T1 = Ok T1' /\ fanthro_ik double_ik rob1 T1' = Ok (IkOk sols) /\ length sols = 4%nat /\
  (Rabs (cos q3) <= 1 - 1.5e-6 -> forall q, In q sols -> forall r3, robot_near u64 eta64 r r3 ->
    exists T2', snd (ffk double r3 q) = Ok T2' /\ Rabs (vx (pos T2') - vx (pos T1')) <= 1.5e-9 /\ Rabs (vy (pos T2') - vy (pos T1')) <= 1.5e-9 /\ Rabs (vz (pos T2') - vz (pos T1')) <= 1.5e-9).
Proof. exact anthro_roundtrip. Qed.
Print Assumptions C172_roundtrip.
(** the bundled arm rounded to doubles *)
Example C172_bare : let r := AnthropomorphicArm 1 1 in like r r /\ r_tfb r = eye4 /\ r_tool r = None /\ robot_near u64 eta64 r (round_robot r).
Proof. exact anthro_bare. Qed.
(** the elbow at a right angle: four rows, each back at the start to 1.5e-9 *)
Example C172_right_angle : let r' := round_robot (AnthropomorphicArm 1 1) in exists rob1 T1 sols,
  ffk double r' [0; 0; PI / 2] = (rob1, Ok T1) /\ fanthro_ik double_ik rob1 T1 = Ok (IkOk sols) /\ length sols = 4%nat /\
  forall q, In q sols -> exists T2, snd (ffk double rob1 q) = Ok T2 /\ Rabs (vx (pos T2) - vx (pos T1)) <= 1.5e-9.
Proof. exact anthro_right_angle. Qed.
(** the point of [C172_folded] in double precision *)
Example C172_folded_double : let r := AnthropomorphicArm 1 1 in exists sols, fanthro_ik double_ik (round_robot r) (M4 mid (V3 (/ 1024) 0 0) v0 1) = Ok (IkOk sols) /\
  forall q, In q sols -> exists F, snd (fk r q) = Ok F /\ 9e-4 <= len (vsub (pos F) (V3 (/ 1024) 0 0)).
Proof. exact anthro_folded_double. Qed.
(** a point three metres away is refused *)
Example C172_far : let r := AnthropomorphicArm 1 1 in fanthro_ik double_ik (round_robot r) (M4 mid (V3 3 0 0) v0 1) = Ok IkFail.
Proof. exact anthro_far. Qed.
