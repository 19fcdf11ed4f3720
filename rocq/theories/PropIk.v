(** * Property theorems C46-C57 and C88-C90: inverse kinematics.

    [like r r0]: r has the Denavit-Hartenberg table of the bundled robot r0;
    geometry, caches, base, tool and limits are arbitrary.  [dist2 u v]:
    squared distance.  [cong a b]: equal up to a multiple of 2 pi.
    tol = 1e-6 is the tolerance of the code. *)
From Coq Require Import Reals Lra List Bool Arith Lia.
From Verif Require Import PyBase Mat Util UtilProofs Geometry Robot RobotProofs RobotForms Ik IkProofs KukaProofs RailProofs IkCases.
Import ListNotations.
Local Open Scope R_scope.

(** C46 *)
Theorem C46_anthropomorphic_exact : forall a2 a3, a2 * a3 <> 0 -> forall r, like r (AnthropomorphicArm a2 a3) -> forall T sols q,
  r_tfb r = eye4 -> r_tool r = None -> anthro_ik r T = Ok (IkOk sols) -> In q sols ->
  Rabs ((norm2 (pos T) - a2 ^ 2 - a3 ^ 2) / (2 * a2 * a3)) <= 1 - tol -> exists F, snd (fk r q) = Ok F /\ pos F = pos T.
Proof. exact (fun a2 a3 N r K T sols q B C H I E => match anthro_correct a2 a3 N r K T sols q B C H I with ex_intro _ F (conj A (conj _ P)) => ex_intro _ F (conj A (P E)) end). Qed.
Print Assumptions C46_anthropomorphic_exact.
(** C46: it returns normally, with four solutions exactly when the elbow cosine is at most 1 + tol. *)
Theorem C46_anthropomorphic_returns : forall a2 a3, a2 * a3 <> 0 -> forall r, like r (AnthropomorphicArm a2 a3) -> forall T,
  let c3 := (norm2 (pos T) - a2 ^ 2 - a3 ^ 2) / (2 * a2 * a3) in
  (Rabs c3 <= 1 + tol /\ exists sols, anthro_ik r T = Ok (IkOk sols) /\ length sols = 4%nat) \/ (1 + tol < Rabs c3 /\ anthro_ik r T = Ok IkFail).
Proof. exact anthro_returns. Qed.
Print Assumptions C46_anthropomorphic_returns.
(** C46: the base frame is ignored: with another base the end effector lands at the moved position. *)
Theorem C46_base_ignored : forall a2 a3, a2 * a3 <> 0 -> forall r, like r (AnthropomorphicArm a2 a3) -> forall T sols q,
  rigid (r_tfb r) -> r_tool r = None -> anthro_ik r T = Ok (IkOk sols) -> In q sols ->
  Rabs ((norm2 (pos T) - a2 ^ 2 - a3 ^ 2) / (2 * a2 * a3)) <= 1 - tol -> exists F, snd (fk r q) = Ok F /\ pos F = tapply (r_tfb r) (pos T).
Proof. exact anthro_base. Qed.
Print Assumptions C46_base_ignored.
Example C46_example : like (AnthropomorphicArm 1 1) (AnthropomorphicArm 1 1) /\ Rabs ((norm2 (V3 1 0 1) - 1 ^ 2 - 1 ^ 2) / (2 * 1 * 1)) <= 1 - tol.
Proof.
  split; [apply like_refl, Anthro_good|]. replace ((norm2 (V3 1 0 1) - 1 ^ 2 - 1 ^ 2) / (2 * 1 * 1)) with 0 by (unfold norm2, vdot; cbn [vx vy vz]; field).
  rewrite Rabs_R0. unfold tol. lra.
Qed.

(** C47 *)
Theorem C47_anthropomorphic_error : forall a2 a3, a2 * a3 <> 0 -> forall r, like r (AnthropomorphicArm a2 a3) -> forall T sols q,
  r_tfb r = eye4 -> r_tool r = None -> anthro_ik r T = Ok (IkOk sols) -> In q sols ->
  exists F, snd (fk r q) = Ok F /\ dist2 (pos F) (pos T) <= 2 * Rabs (a2 * a3) * / 1000000.
Proof. exact (fun a2 a3 N r K T sols q B C H I => match anthro_correct a2 a3 N r K T sols q B C H I with ex_intro _ F (conj A (conj D _)) => ex_intro _ F (conj A D) end). Qed.
Print Assumptions C47_anthropomorphic_error.
Example C47_example : exists sols q, anthro_ik (AnthropomorphicArm 1 1) (M4 mid (V3 1 0 1) v0 1) = Ok (IkOk sols) /\ In q sols.
Proof. exact anthro_case. Qed.

(** C48 *)
Theorem C48_anthropomorphic_unreachable : forall a2 a3, a2 * a3 <> 0 -> forall r, like r (AnthropomorphicArm a2 a3) -> forall T q1 q2 q3 F,
  r_tfb r = eye4 -> r_tool r = None -> anthro_ik r T = Ok IkFail -> snd (fk r [q1; q2; q3]) = Ok F -> pos F <> pos T.
Proof. exact anthro_unreachable. Qed.
Print Assumptions C48_anthropomorphic_unreachable.
Theorem C48_anthropomorphic_complete : forall a2 a3, a2 * a3 <> 0 -> forall r, like r (AnthropomorphicArm a2 a3) -> forall T q1 q2 q3 F,
  r_tfb r = eye4 -> r_tool r = None -> snd (fk r [q1; q2; q3]) = Ok F -> pos F = pos T ->
  0 < vx (pos T) ^ 2 + vy (pos T) ^ 2 -> Rabs (cos q3) <= 1 - tol ->
  exists sols s, anthro_ik r T = Ok (IkOk sols) /\ In s sols /\ Forall2 cong [q1; q2; q3] s.
Proof. exact anthro_finds_all. Qed.
Print Assumptions C48_anthropomorphic_complete.
Example C48_example : exists F, snd (fk (AnthropomorphicArm 1 1) [0; 0; PI / 2]) = Ok F /\ 0 < vx (pos F) ^ 2 + vy (pos F) ^ 2 /\ Rabs (cos (PI / 2)) <= 1 - tol.
Proof.
  rewrite anthropomorphic_fk. eexists. split; [reflexivity|]. cbn [anthropomorphic_form pos vx vy]. rewrite Rplus_0_l, cos_0, sin_0, cos_PI2, Rabs_R0. unfold tol. split; lra.
Qed.

(** C49: exact unless the elbow is stretched or folded, and then within sqrt(2 a2 a3 1e-6). *)
Theorem C49_arm2_correct : forall a1 a2 a3, a2 * a3 <> 0 -> forall r, like r (Arm2 a1 a2 a3) -> forall T sols q,
  r_tfb r = eye4 -> r_tool r = None -> arm2_ik r T = Ok (IkOk sols) -> In q sols ->
  exists q1 q2 q3 F, q = [q1; q2; q3] /\ snd (fk r q) = Ok F /\ dist2 (pos F) (pos T) <= 2 * Rabs (a2 * a3) * tol /\ (sin q3 <> 0 -> pos F = pos T).
Proof. exact arm2_correct. Qed.
Print Assumptions C49_arm2_correct.
(** C49: a stretched or folded solution is returned only when that branch was snapped. *)
Theorem C49_arm2_snapped : forall a1 a2 a3, a2 * a3 <> 0 -> forall r, like r (Arm2 a1 a2 a3) -> forall T sols q1 q2 q3,
  arm2_ik r T = Ok (IkOk sols) -> In [q1; q2; q3] sols -> sin q3 = 0 ->
  exists l, (l = sqrt (vx (pos T) ^ 2 + vy (pos T) ^ 2) \/ l = - sqrt (vx (pos T) ^ 2 + vy (pos T) ^ 2)) /\
    let c3 := ((l - a1) ^ 2 + vz (pos T) ^ 2 - a2 ^ 2 - a3 ^ 2) / (2 * a2 * a3) in 1 - tol < Rabs c3 <= 1 + tol.
Proof. exact arm2_not_singular. Qed.
Print Assumptions C49_arm2_snapped.
Example C49_example : like (Arm2 1 1 1) (Arm2 1 1 1). Proof. apply like_refl, Arm2_good. Qed.

(** C50 *)
Theorem C50_arm2_unreachable : forall a1 a2 a3, a2 * a3 <> 0 -> forall r, like r (Arm2 a1 a2 a3) -> forall T q1 q2 q3 F,
  r_tfb r = eye4 -> r_tool r = None -> arm2_ik r T = Ok IkFail -> snd (fk r [q1; q2; q3]) = Ok F -> pos F <> pos T.
Proof. exact arm2_unreachable. Qed.
Print Assumptions C50_arm2_unreachable.
(** C50: it never raises, and success comes with two or four solutions. *)
Theorem C50_arm2_returns : forall a1 a2 a3, a2 * a3 <> 0 -> forall r, like r (Arm2 a1 a2 a3) -> forall T,
  arm2_ik r T = Ok IkFail \/ exists sols, arm2_ik r T = Ok (IkOk sols) /\ (length sols = 2 \/ length sols = 4)%nat.
Proof. exact arm2_returns. Qed.
Print Assumptions C50_arm2_returns.
(** C50: all solutions of a position off the axis and not stretched are found. *)
Theorem C50_arm2_complete : forall a1 a2 a3, a2 * a3 <> 0 -> forall r, like r (Arm2 a1 a2 a3) -> forall T q1 q2 q3 F,
  r_tfb r = eye4 -> r_tool r = None -> snd (fk r [q1; q2; q3]) = Ok F -> pos F = pos T ->
  0 < vx (pos T) ^ 2 + vy (pos T) ^ 2 -> Rabs (cos q3) <= 1 - tol ->
  exists sols s, arm2_ik r T = Ok (IkOk sols) /\ In s sols /\ Forall2 cong [q1; q2; q3] s.
Proof. exact arm2_finds_all. Qed.
Print Assumptions C50_arm2_complete.
(** a target out of reach, and one that meets the conditions of completeness *)
Example C50_example : arm2_ik (Arm2 1 1 1) (M4 mid (V3 10 0 0) v0 1) = Ok IkFail /\
  exists F, snd (fk (Arm2 1 1 1) [0; 0; PI / 2]) = Ok F /\ 0 < vx (pos F) ^ 2 + vy (pos F) ^ 2 /\ Rabs (cos (PI / 2)) <= 1 - tol.
Proof. exact arm2_case. Qed.

(** C51: the approach axis seen from the base is not vertical. *)
Theorem C51_wrist_correct : forall d3 w T w' s q, like (w_rob w) (SphericalWrist d3) -> rigid (r_tfb (w_rob w)) -> r_tool (w_rob w) = None -> rotation (rot T) ->
  wrist_ik w T = (w', IkOk s) -> In q (read w' s) -> 0 < vx (approach w T) ^ 2 + vy (approach w T) ^ 2 ->
  exists F, snd (fk (w_rob w') q) = Ok F /\ rot F = rot T.
Proof. exact wrist_correct. Qed.
Print Assumptions C51_wrist_correct.
(** C51: and every set of wrist angles is found. *)
Theorem C51_wrist_complete : forall d3 w T t1 t2 t3 F, like (w_rob w) (SphericalWrist d3) -> rigid (r_tfb (w_rob w)) -> r_tool (w_rob w) = None ->
  snd (fk (w_rob w) [t1; t2; t3]) = Ok F -> rot F = rot T -> sin t2 <> 0 ->
  exists w' s u, wrist_ik w T = (w', IkOk s) /\ In u (read w' s) /\ Forall2 cong [t1; t2; t3] u.
Proof. exact wrist_finds_all. Qed.
Print Assumptions C51_wrist_complete.
Example C51_example : let w := new_wrist 1 in let T := M4 (rot_y 1) v0 v0 1 in
  like (w_rob w) (SphericalWrist 1) /\ rigid (r_tfb (w_rob w)) /\ rotation (rot T) /\ 0 < vx (approach w T) ^ 2 + vy (approach w T) ^ 2.
Proof.
  cbv zeta. split; [apply like_refl, Wrist_good|]. split; [apply rigid_eye|]. split; [apply rot_y_rotation|]. unfold approach. cbn [new_wrist w_rob SphericalWrist robot_init r_tfb eye4 rot]. rewrite mtr_mid, mapply_1.
  cbn [col2 rot_y vx vy m02 m12]. pose proof PI2_3_2. assert (0 < sin 1) by (apply sin_gt_0; lra). nra.
Qed.

(** C52: refuted: for a half turn about the vertical axis both returned solutions are wrong. *)
Theorem C52_wrist_singular_refuted : exists T w' s, rigid T /\ wrist_ik (new_wrist 1) T = (w', IkOk s) /\ read w' s <> [] /\
  forall q, In q (read w' s) -> exists F, snd (fk (w_rob w') q) = Ok F /\ rot F <> rot T.
Proof. exact wrist_singular. Qed.
Print Assumptions C52_wrist_singular_refuted.

(** C53: exact when neither wrist (sin q5 = 0) nor elbow (cos q3 = 0) is singular; with a singular elbow the rotation is exact and the position within sqrt(2 a2 d4 1e-6). *)
Theorem C53_kuka_correct : forall a1 a2 d4 d6, a2 * d4 <> 0 -> forall k T s w q, kuka_ok a1 a2 d4 d6 k ->
  rigid (r_tfb (k_rob k)) -> rigid_tool (k_rob k) -> rigid T -> snd (kuka_ik k T) = Ok (IkOk s) -> In q (read w s) ->
  exists q1 q2 q3 q4 q5 q6 F, q = [q1; q2; q3; q4; q5; q6] /\ snd (fk (k_rob k) q) = Ok F /\
    (sin q5 <> 0 -> cos q3 <> 0 -> F = T) /\
    (sin q5 <> 0 -> rot F = rot T /\ dist2 (pos F) (pos T) <= 2 * Rabs (a2 * d4) * tol).
Proof. exact kuka_correct. Qed.
Print Assumptions C53_kuka_correct.
Example C53_example : kuka_ok 0.18 0.6 0.62 0.115 (new_kuka 0.18 0.6 0.62 0.115). Proof. apply new_kuka_ok. Qed.

(** C54 *)
Theorem C54_rail_correct : forall rl T q0 s w q, rail_ok 0.18 0.6 0.62 0.115 rl -> rigid (r_tfb (rl_rob rl)) -> rigid_tool (rl_rob rl) -> rigid T ->
  snd (rail_ik rl T q0) = Ok (IkOk s) -> In q (read w s) ->
  exists q1 q2 q3 q4 q5 q6 F, q = [q0; q1; q2; q3; q4; q5; q6] /\ snd (fk (rl_rob rl) q) = Ok F /\
    (sin q5 <> 0 -> cos q3 <> 0 -> F = T) /\
    (sin q5 <> 0 -> rot F = rot T /\ dist2 (pos F) (pos T) <= 2 * Rabs (0.6 * 0.62) * tol).
Proof. exact rail_correct. Qed.
Print Assumptions C54_rail_correct.
Example C54_example : rail_ok 0.18 0.6 0.62 0.115 (new_rail 0.18 0.6 0.62 0.115). Proof. apply new_rail_ok. Qed.

(** C55: refuted *)
Theorem C55_rail_dimensions_refuted : exists T sols q F, rigid T /\ snd (rail_ik (new_rail 1 0.6 0.62 0.115) T 0) = Ok (IkOk (Own sols)) /\ In q sols /\
  snd (fk (rl_rob (new_rail 1 0.6 0.62 0.115)) q) = Ok F /\ F <> T.
Proof. exact rail_wrong_dims. Qed.
Print Assumptions C55_rail_dimensions_refuted.
(** C55: whatever the constructor dimensions, the solutions are those of the default robot. *)
Theorem C55_rail_default_partial : forall a1 a2 d4 d6 rl rl' T q0, rail_ok a1 a2 d4 d6 rl -> rail_ok 0.18 0.6 0.62 0.115 rl' ->
  r_tfb (rl_rob rl) = r_tfb (rl_rob rl') -> r_tool (rl_rob rl) = r_tool (rl_rob rl') -> snd (rail_ik rl T q0) = snd (rail_ik rl' T q0).
Proof. exact rail_dims_ignored. Qed.
Print Assumptions C55_rail_default_partial.
Example C55_example : rail_ok 1 2 3 4 (new_rail 1 2 3 4) /\ rail_ok 0.18 0.6 0.62 0.115 (new_rail 0.18 0.6 0.62 0.115) /\
  r_tfb (rl_rob (new_rail 1 2 3 4)) = r_tfb (rl_rob (new_rail 0.18 0.6 0.62 0.115)) /\ r_tool (rl_rob (new_rail 1 2 3 4)) = r_tool (rl_rob (new_rail 0.18 0.6 0.62 0.115)).
Proof. split; [apply new_rail_ok|]. split; [apply new_rail_ok|]. split; reflexivity. Qed.

(** C56: refuted: q3 above pi *)
Theorem C56_kuka_limits_refuted : exists T sols q1 q2 q3 q4 q5 q6, rigid T /\ snd (kuka_ik default_kuka T) = Ok (IkOk (Own sols)) /\ In [q1; q2; q3; q4; q5; q6] sols /\ q3 > PI /\
  nth_error (r_limits (k_rob default_kuka)) 2 = Some (- PI, PI).
Proof. exact kuka_over_limit. Qed.
Print Assumptions C56_kuka_limits_refuted.
(** C56: the other five joints are within, and q3 between -pi/2 and 3/2 pi. *)
Theorem C56_kuka_limits_partial : forall a1 a2 d4 d6, a2 * d4 <> 0 -> forall k T s w q, kuka_ok a1 a2 d4 d6 k -> snd (kuka_ik k T) = Ok (IkOk s) -> In q (read w s) ->
  exists q1 q2 q3 q4 q5 q6, q = [q1; q2; q3; q4; q5; q6] /\
  - PI < q1 <= PI /\ - PI < q2 <= PI /\ - PI / 2 < q3 <= 3 * PI / 2 /\ - PI < q4 <= PI /\ - PI < q5 <= PI /\ - PI < q6 <= PI.
Proof. exact kuka_limits. Qed.
Print Assumptions C56_kuka_limits_partial.

(** C57: refuted for the wrist *)
Theorem C57_wrist_aliased_refuted : exists T1 T2, rigid T1 /\ rigid T2 /\
  let (w1, r1) := wrist_ik (new_wrist 1) T1 in let (w2, r2) := wrist_ik w1 T2 in
  exists s, r1 = IkOk s /\ read w1 s <> read w2 s.
Proof. exact wrist_aliased. Qed.
Print Assumptions C57_wrist_aliased_refuted.
(** C57: holds for Kuka, whose solutions are copies. *)
Theorem C57_kuka_own_partial : forall a1 a2 d4 d6, a2 * d4 <> 0 -> forall k T s w w', kuka_ok a1 a2 d4 d6 k -> snd (kuka_ik k T) = Ok (IkOk s) -> read w s = read w' s.
Proof. exact kuka_own. Qed.
Print Assumptions C57_kuka_own_partial.
(** a call that succeeds, for C56 and C57 *)
Example C57_example : let k := new_kuka 0.18 0.6 0.62 0.115 in
  kuka_ok 0.18 0.6 0.62 0.115 k /\ exists T sols q, snd (kuka_ik k T) = Ok (IkOk (Own sols)) /\ In q sols.
Proof. exact kuka_case. Qed.

(** C88: Kuka.ik fails only for unreachable poses and finds every joint vector off the singularities. *)
Theorem C88_kuka_unreachable : forall a1 a2 d4 d6, a2 * d4 <> 0 -> forall k T q1 q2 q3 q4 q5 q6 F, kuka_ok a1 a2 d4 d6 k -> rigid (r_tfb (k_rob k)) -> rigid_tool (k_rob k) ->
  snd (kuka_ik k T) = Ok IkFail -> snd (fk (k_rob k) [q1; q2; q3; q4; q5; q6]) = Ok F -> F <> T.
Proof. exact kuka_unreachable. Qed.
Print Assumptions C88_kuka_unreachable.
Theorem C88_kuka_complete : forall a1 a2 d4 d6, a2 * d4 <> 0 -> forall k q1 q2 q3 q4 q5 q6 T, kuka_ok a1 a2 d4 d6 k -> rigid (r_tfb (k_rob k)) -> rigid_tool (k_rob k) ->
  snd (fk (k_rob k) [q1; q2; q3; q4; q5; q6]) = Ok T ->
  0 < lxy (kuka_centre a1 a2 d4 q1 q2 q3) -> Rabs (sin q3) <= 1 - tol -> sin q5 <> 0 ->
  exists sols s, snd (kuka_ik k T) = Ok (IkOk (Own sols)) /\ In s sols /\ Forall2 cong [q1; q2; q3; q4; q5; q6] s.
Proof. exact kuka_finds_all. Qed.
Print Assumptions C88_kuka_complete.
Theorem C88_kuka_returns : forall a1 a2 d4 d6, a2 * d4 <> 0 -> forall k T, kuka_ok a1 a2 d4 d6 k ->
  snd (kuka_ik k T) = Ok IkFail \/ exists sols, snd (kuka_ik k T) = Ok (IkOk (Own sols)) /\ (length sols = 4 \/ length sols = 8)%nat.
Proof. exact kuka_returns. Qed.
Print Assumptions C88_kuka_returns.
Example C88_example : 0 < lxy (kuka_centre 0.18 0.6 0.62 0 0 0) /\ Rabs (sin 0) <= 1 - tol /\ sin (PI / 2) <> 0.
Proof.
  split; [apply sqrt_lt_R0; unfold kuka_centre; cbn [vx vy]; rewrite Rplus_0_l, sin_0, cos_0; lra|]. rewrite sin_0, Rabs_R0, sin_PI2. unfold tol. split; lra.
Qed.

(** C89: ik does not depend on earlier calls. *)
Theorem C89_kuka_history : forall prim a1 a2 d4 d6 k os T, a2 * d4 <> 0 -> kuka_ok a1 a2 d4 d6 k -> snd (kuka_ik (run_kops prim k os) T) = snd (kuka_ik k T).
Proof. exact kuka_ik_history. Qed.
Print Assumptions C89_kuka_history.
Theorem C89_rail_history : forall prim a1 a2 d4 d6 rl os T q, rail_ok a1 a2 d4 d6 rl -> snd (rail_ik (run_rops prim rl os) T q) = snd (rail_ik rl T q).
Proof. exact rail_ik_history. Qed.
Print Assumptions C89_rail_history.

(** C90: KukaOnRail.ik with the default dimensions: failure and completeness for the given rail position. *)
Theorem C90_rail_unreachable : forall rl T q0 q1 q2 q3 q4 q5 q6 F, rail_ok 0.18 0.6 0.62 0.115 rl -> rigid (r_tfb (rl_rob rl)) -> rigid_tool (rl_rob rl) ->
  snd (rail_ik rl T q0) = Ok IkFail -> snd (fk (rl_rob rl) [q0; q1; q2; q3; q4; q5; q6]) = Ok F -> F <> T.
Proof. exact rail_unreachable. Qed.
Print Assumptions C90_rail_unreachable.
Theorem C90_rail_complete : forall rl q0 q1 q2 q3 q4 q5 q6 T, rail_ok 0.18 0.6 0.62 0.115 rl -> rigid (r_tfb (rl_rob rl)) -> rigid_tool (rl_rob rl) ->
  snd (fk (rl_rob rl) [q0; q1; q2; q3; q4; q5; q6]) = Ok T ->
  0 < lxy (kuka_centre 0.18 0.6 0.62 q1 q2 q3) -> Rabs (sin q3) <= 1 - tol -> sin q5 <> 0 ->
  exists sols s, snd (rail_ik rl T q0) = Ok (IkOk (Own sols)) /\ In (q0 :: s) sols /\ Forall2 cong [q1; q2; q3; q4; q5; q6] s.
Proof. exact rail_finds_all. Qed.
Print Assumptions C90_rail_complete.
Example C90_example : let rl := new_rail 0.18 0.6 0.62 0.115 in
  rail_ok 0.18 0.6 0.62 0.115 rl /\ rigid (r_tfb (rl_rob rl)) /\ rigid_tool (rl_rob rl) /\
  exists T sols q, snd (fk (rl_rob rl) [1; 0; 0; 0; 0; PI / 2; 0]) = Ok T /\ snd (rail_ik rl T 1) = Ok (IkOk (Own sols)) /\ In q sols.
Proof. exact rail_case. Qed.
