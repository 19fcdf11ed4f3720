(** * Property theorem C152: inverse kinematics of the Kuka in floating point.

    [fkuka_ik A k T]: Kuka.ik with the arithmetic A, rounding after every operation.
    [ik_ok A u eta g h]: [arith_ok] of C130, and x ** 2 within 2u, the square root within
    u, an angle within 4u, a sum of three products within g, np.pi within 4u.
    [kuka_std k]: a Kuka with its standard dimensions, a rigid base within 2 of the
    origin, no tool or a rigid one with its tip within 1/2 of the flange.
    [kuka_near u eta k k']: each number of the tables, base and tool of k' is that of k
    rounded.  [tnear u kp kq T T']: rotation entries within kp u, coordinates within kq u.
    [unmount r T]: the flange of the robot without base and tool.  [centre d6 X]: the point
    d6 behind the flange X.  [kuka_centre], [col2 (arm2_rot q1 (q2 + q3))]: the wrist
    centre and the direction of the forearm.  [centre_err u q3]: 8e6 u when
    |cos q3| >= 1e-3 and 4.1e-5 otherwise.  [rho u kp s] = 7100 (kp + 120) u / s.
    [double_ik]: IEEE binary64 (Flocq). *)
From Coq Require Import Reals Lra List Arith Lia.
From Flocq Require Import Core.
From Verif Require Import PyBase Mat Geometry Robot RobotProofs RobotForms Ik IkProofs KukaProofs Motion FloatFk FloatFkProofs FloatIk FloatIkProofs FloatIkKuka FloatIkDouble.
Import ListNotations.
Local Open Scope R_scope.

(** C152: no exception; failure only for a pose that no joint angles reach; 4 or 8 rows;
    every row puts the wrist centre and the fifth joint right, and the flange as right as
    the sine of the fifth joint allows; the object can be used again. *)
Theorem C152_ik : forall A u eta g h, ik_ok A u eta g h -> 0 < u <= 1e-13 -> 0 <= eta <= u ^ 2 -> 0 <= g <= 8 * u -> 0 <= h <= u ->
  forall kp kq, 2 <= kp <= 2300 -> 3 <= kq <= 5000 ->
  forall k k' T T', kuka_std k -> kuka_near u eta k k' -> rigid T -> len (vsub (pos T) (pos (r_tfb (k_rob k)))) <= 3 -> tnear u kp kq T T' -> let X := unmount (k_rob k) T in
  kuka_near u eta k (fst (fkuka_ik A k' T')) /\
  ((snd (fkuka_ik A k' T') = Ok IkFail /\ forall q1 q2 q3 q4 q5 q6, snd (fk (k_rob k) [q1; q2; q3; q4; q5; q6]) <> Ok T) \/
   exists sols, snd (fkuka_ik A k' T') = Ok (IkOk (Own sols)) /\ (length sols = 4 \/ length sols = 8)%nat /\
     forall q, In q sols -> exists q1 q2 q3 q4 q5 q6 F, q = [q1; q2; q3; q4; q5; q6] /\ snd (fk (k_rob k) q) = Ok F /\
       len (vsub (kuka_centre 0.18 0.6 0.62 q1 q2 q3) (centre 0.115 X)) <= centre_err u q3 /\
       Rabs (cos q5 - vdot (col2 (arm2_rot q1 (q2 + q3))) (col2 (rot X))) <= 400 * (kp + 120) * u /\
       forall s, 54000 * (kp + 120) * u <= s <= Rabs (sin q5) ->
         (forall v, len (vsub (mapply (rot F) v) (mapply (rot T) v)) <= rho u kp s * len v) /\ len (vsub (pos F) (pos T)) <= centre_err u q3 + 0.615 * rho u kp s).
Proof. exact fkuka_e. Qed.
Print Assumptions C152_ik.
(** C152: double precision is such an arithmetic. *)
Theorem C152_double : ik_ok double_ik (bpow radix2 (-53)) (bpow radix2 (-1075)) (5 * bpow radix2 (-53)) (10 * bpow radix2 (-1075)).
Proof. exact double_ik_ok. Qed.
Print Assumptions C152_double.
(** C152: what tests/test_robot.py:307-323 asserts, fk then ik then fk in double precision: ik succeeds,
    and every row away from the two singularities gives the same matrix to 1.5e-7 in every entry. *)
Theorem C152_roundtrip : forall k k' q1 q2 q3 q4 q5 q6, kuka_std k -> kuka_near u64 eta64 k k' ->
  let (rob1, T1) := ffk double (k_rob k') [q1; q2; q3; q4; q5; q6] in
  exists T1' sols, T1 = Ok T1' /\ snd (fkuka_ik double_ik (Kk rob1 (k_arm k') (k_wrist k')) T1') = Ok (IkOk (Own sols)) /\ (length sols = 4 \/ length sols = 8)%nat /\
  let k2 := fst (fkuka_ik double_ik (Kk rob1 (k_arm k') (k_wrist k')) T1') in kuka_near u64 eta64 k k2 /\
  forall p1 p2 p3 p4 p5 p6, In [p1; p2; p3; p4; p5; p6] sols -> 2e-2 <= Rabs (sin p5) -> 1e-3 <= Rabs (cos p3) ->
    forall k3, kuka_near u64 eta64 k k3 -> exists T2', snd (ffk double (k_rob k3) [p1; p2; p3; p4; p5; p6]) = Ok T2' /\ close 1.5e-7 1.5e-7 T1' T2'.
Proof. exact roundtrip. Qed.
Print Assumptions C152_roundtrip.
(** C152: the hypotheses hold for a robot rounded to doubles. *)
Theorem C152_rounded : forall k, small_angles (k_rob k) -> small_angles (k_arm k) -> kuka_near u64 eta64 k (round_kuka k).
Proof. exact round_kuka_near. Qed.
Print Assumptions C152_rounded.
(** the bundled robot, bare and with the torch *)
Example C152_bare : kuka_std (new_kuka 0.18 0.6 0.62 0.115) /\ kuka_near u64 eta64 (new_kuka 0.18 0.6 0.62 0.115) (round_kuka (new_kuka 0.18 0.6 0.62 0.115)).
Proof. destruct new_kuka_std as (H & A1 & A2). split; [exact H|apply C152_rounded; assumption]. Qed.
Example C152_torch : kuka_std (with_torch (new_kuka 0.18 0.6 0.62 0.115)) /\ kuka_near u64 eta64 (with_torch (new_kuka 0.18 0.6 0.62 0.115)) (round_kuka (with_torch (new_kuka 0.18 0.6 0.62 0.115))).
Proof. destruct new_kuka_std as (_ & A1 & A2). split; [exact torch_std|apply C152_rounded; assumption]. Qed.
(** a pose, rounded to doubles, that every returned row reaches to a few nanometres *)
Example C152_side : let k := new_kuka 0.18 0.6 0.62 0.115 in exists T sols, snd (fk (k_rob k) [0; 0; 0; PI / 2; PI / 2; 0]) = Ok T /\
  snd (fkuka_ik double_ik (round_kuka k) (round_frame T)) = Ok (IkOk (Own sols)) /\ (4 <= length sols)%nat /\
  forall q, In q sols -> exists F, snd (fk (k_rob k) q) = Ok F /\ (forall v, len (vsub (mapply (rot F) v) (mapply (rot T) v)) <= 1e-9 * len v) /\ len (vsub (pos F) (pos T)) <= 2e-9.
Proof. exact side_case. Qed.
