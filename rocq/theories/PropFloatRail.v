(** * Property theorem C173: inverse kinematics of the KukaOnRail in floating point.

    [frail_ik A rl T q]: KukaOnRail.ik with the arithmetic A, rounding after every operation.
    [ik_ok A u eta g h], [tnear u kp kq T T'], [centre_err u q3], [double_ik]: as in C152.
    [rail_std rl]: a KukaOnRail with its standard dimensions, a rigid base within 2 of the
    origin, no tool or a rigid one with its tip within 1/2 of the flange.
    [rail_near u eta rl rl']: each number of the tables, base and tool of rl' is that of rl
    rounded.  [rail_form q]: the frame of the carriage.  [from_carriage rl q T]: the flange
    seen from the carriage.  [centre d6 X]: the point d6 behind the flange X. *)
From Coq Require Import Reals Lra List Arith Lia.
From Verif Require Import PyBase Mat Geometry Robot RobotProofs RobotForms Ik IkProofs KukaProofs RailProofs Motion FloatFk FloatFkProofs FloatIk FloatIkProofs FloatIkKuka FloatIkDouble FloatRail FloatRailProofs FloatRailDouble.
Import ListNotations.
Local Open Scope R_scope.

(** C173: no exception; failure only for a pose that no joint angles reach with the carriage at q;
    4 or 8 rows; every row has q first, puts the wrist centre and the fifth joint right, and the
    flange as right as the sine of the fifth joint allows; the object can be used again. *)
Theorem C173_ik : forall A u eta g h, ik_ok A u eta g h -> 0 < u <= 1e-13 -> 0 <= eta <= u ^ 2 -> 0 <= g <= 8 * u -> 0 <= h <= u ->
  forall kp kq, 2 <= kp <= 700 -> 3 <= kq <= 1200 ->
  forall rl rl' q T T', rail_std rl -> rail_near u eta rl rl' -> rigid T -> Rabs q <= 4 -> len (vsub (pos T) (pos (tmul (r_tfb (rl_rob rl)) (rail_form q)))) <= 3 -> tnear u kp kq T T' ->
  let X := from_carriage rl q T in
  rail_near u eta rl (fst (frail_ik A rl' T' q)) /\
  ((snd (frail_ik A rl' T' q) = Ok IkFail /\ forall q1 q2 q3 q4 q5 q6, snd (fk (rl_rob rl) [q; q1; q2; q3; q4; q5; q6]) <> Ok T) \/
   exists sols, snd (frail_ik A rl' T' q) = Ok (IkOk (Own sols)) /\ (length sols = 4 \/ length sols = 8)%nat /\
     forall row, In row sols -> exists q1 q2 q3 q4 q5 q6 F, row = [q; q1; q2; q3; q4; q5; q6] /\ snd (fk (rl_rob rl) row) = Ok F /\
       len (vsub (kuka_centre 0.18 0.6 0.62 q1 q2 q3) (centre 0.115 X)) <= centre_err u q3 /\
       Rabs (cos q5 - vdot (col2 (arm2_rot q1 (q2 + q3))) (col2 (rot X))) <= 1200 * (kp + 75) * u /\
       forall s, 162000 * (kp + 75) * u <= s <= Rabs (sin q5) ->
         (forall v, len (vsub (mapply (rot F) v) (mapply (rot T) v)) <= 21300 * (kp + 75) * (u / s) * len v) /\ len (vsub (pos F) (pos T)) <= centre_err u q3 + 0.615 * (21300 * (kp + 75) * (u / s))).
Proof. exact frail_e. Qed.
Print Assumptions C173_ik.
(** C173: a wrist centre farther than 1.40005 from the carriage is refused. *)
Theorem C173_far : forall A u eta g h, ik_ok A u eta g h -> 0 < u <= 1e-13 -> 0 <= eta <= u ^ 2 -> 0 <= g <= 8 * u -> 0 <= h <= u -> forall kp kq, 2 <= kp <= 700 -> 3 <= kq <= 1200 ->
  forall rl rl' q T T', rail_std rl -> rail_near u eta rl rl' -> rigid T -> Rabs q <= 4 -> len (vsub (pos T) (pos (tmul (r_tfb (rl_rob rl)) (rail_form q)))) <= 3 -> tnear u kp kq T T' ->
  1.40005 <= len (centre 0.115 (from_carriage rl q T)) -> snd (frail_ik A rl' T' q) = Ok IkFail.
Proof. exact frail_far. Qed.
Print Assumptions C173_far.
(** C173: what tests/test_robot.py:363-399 asserts, fk then ik then fk in double precision: ik succeeds
    for every carriage position up to 4 m and all joint angles, and every row away from the two
    singularities gives the same matrix to 1.5e-7 in every entry, also on the object after ik. *)
Theorem C173_roundtrip : forall rl rl' q0 q1 q2 q3 q4 q5 q6, rail_std rl -> rail_near u64 eta64 rl rl' -> Rabs q0 <= 4 ->
  let (rob1, T1) := ffk double (rl_rob rl') [q0; q1; q2; q3; q4; q5; q6] in
  exists T1' sols, T1 = Ok T1' /\ snd (frail_ik double_ik (Rl rob1 (rl_kuka rl')) T1' q0) = Ok (IkOk (Own sols)) /\ (length sols = 4 \/ length sols = 8)%nat /\
  rail_near (10 * u64) eta64 rl (fst (frail_ik double_ik (Rl rob1 (rl_kuka rl')) T1' q0)) /\
  forall p0 p1 p2 p3 p4 p5 p6, In [p0; p1; p2; p3; p4; p5; p6] sols -> p0 = q0 /\
    (7e-2 <= Rabs (sin p5) -> 1e-3 <= Rabs (cos p3) -> forall rl3, rail_near (10 * u64) eta64 rl rl3 ->
     exists T2', snd (ffk double (rl_rob rl3) [p0; p1; p2; p3; p4; p5; p6]) = Ok T2' /\ close 1.5e-7 1.5e-7 T1' T2').
Proof. exact rail_roundtrip. Qed.
Print Assumptions C173_roundtrip.
(** the bundled robot rounded to doubles, bare and with the torch *)
Example C173_bare : rail_std rail0 /\ rail_near u64 eta64 rail0 (round_rail rail0).
Proof. exact rail0_std. Qed.
Example C173_torch : rail_std torch_rail /\ rail_near u64 eta64 torch_rail (round_rail torch_rail).
Proof. exact torch_rail_std. Qed.
(** the carriage at 1 m, the hand square to the arm: at least four rows *)
Example C173_carriage : exists rob1 T1 sols, ffk double (rl_rob (round_rail rail0)) [1; 0; 0; 0; PI / 2; PI / 2; 0] = (rob1, Ok T1) /\
  snd (frail_ik double_ik (Rl rob1 (rl_kuka (round_rail rail0))) T1 1) = Ok (IkOk (Own sols)) /\ (4 <= length sols)%nat.
Proof. exact carriage_case. Qed.
(** a pose 2.5 m beside the carriage is refused *)
Example C173_beside : snd (frail_ik double_ik (round_rail rail0) (M4 mid (V3 2.5 0 0) v0 1) 0) = Ok IkFail.
Proof. exact beside_far. Qed.
