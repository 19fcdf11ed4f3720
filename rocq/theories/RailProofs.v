(** * Inverse kinematics against forward kinematics. *)
From Coq Require Import Reals Lra Psatz List Bool Arith Lia.
From Verif Require Import PyBase Mat Util UtilProofs Geometry Robot RobotProofs RobotForms Ik IkProofs KukaProofs.
Import ListNotations.
Local Open Scope R_scope.

(** ** Arms *)
Lemma Ok_inj {A} (x y : A) : Ok x = Ok y -> x = y. Proof. congruence. Qed.
Lemma fk_no_base r r0 q : like r r0 -> good r0 -> r_tfb r0 = eye4 -> r_tool r0 = None -> r_tfb r = eye4 -> r_tool r = None -> snd (fk r q) = snd (fk r0 q).
Proof.
  intros K G B0 N0 B N. rewrite (fk_like r r0) by auto. unfold tooled. rewrite B, N. destruct (snd (fk r0 q)); cbn [bind]; auto. rewrite tmul_1_l. reflexivity.
Qed.
Lemma fk_base_pos r r0 q F0 : like r r0 -> good r0 -> r_tfb r0 = eye4 -> r_tool r0 = None -> r_tool r = None -> rigid (r_tfb r) ->
  snd (fk r0 q) = Ok F0 -> exists F, snd (fk r q) = Ok F /\ pos F = tapply (r_tfb r) (pos F0).
Proof.
  intros K G B0 N0 N RB E. rewrite (fk_like r r0) by auto. rewrite E. cbn [bind]. unfold tooled. rewrite N. eexists. split; [reflexivity|].
  assert (RF : rigid F0) by (eapply (fk_rigid r0); eauto; [rewrite B0; apply rigid_eye|unfold rigid_tool; rewrite N0; exact I]).
  destruct RB as [_ B1 B2], RF as [_ F1 F2]. rewrite tmul_blocks by auto. reflexivity.
Qed.
Lemma arm_result_ok a1 a2 a3 p s : arm_result a1 a2 a3 p = IkOk s -> s = arm_sols a1 a2 a3 p.
Proof. unfold arm_result. destruct (arm_sols a1 a2 a3 p); congruence. Qed.
Lemma arm_result_fail a1 a2 a3 p : arm_result a1 a2 a3 p = IkFail -> arm_sols a1 a2 a3 p = [].
Proof. unfold arm_result. destruct (arm_sols a1 a2 a3 p); congruence. Qed.
Lemma lxy_sq p : lxy p ^ 2 = vx p ^ 2 + vy p ^ 2.
Proof. apply sqrt_sum_sq. Qed.
Lemma elbow_cos_anthro a2 a3 p l : l = lxy p \/ l = - lxy p -> elbow_cos a2 a3 (l - 0) (vz p) = (norm2 p - a2 ^ 2 - a3 ^ 2) / (2 * a2 * a3).
Proof.
  intros H. unfold elbow_cos. f_equal. assert (E : (l - 0) ^ 2 = vx p ^ 2 + vy p ^ 2) by (rewrite <- lxy_sq; destruct H as [-> | ->]; ring). rewrite E.
  unfold norm2, vdot. ring.
Qed.

Section Anthro.
Context (a2 a3 : R) (Hne : a2 * a3 <> 0) (r : robot) (K : like r (AnthropomorphicArm a2 a3)).
(** success: exactly when the elbow cosine is at most 1 + tol in absolute value *)
Lemma anthro_returns T : let c3 := (norm2 (pos T) - a2 ^ 2 - a3 ^ 2) / (2 * a2 * a3) in
  (Rabs c3 <= 1 + tol /\ exists sols, anthro_ik r T = Ok (IkOk sols) /\ length sols = 4%nat) \/ (1 + tol < Rabs c3 /\ anthro_ik r T = Ok IkFail).
Proof.
  intros c3. rewrite (anthro_ik_result a2 a3) by auto. unfold arm_result, arm_sols, branch. rewrite !elbow_cos_anthro by auto. fold c3.
  destruct (elbow c3) eqn:E.
  - left. split; [destruct (Rle_dec (Rabs c3) (1 + tol)); auto; assert (N : elbow c3 = None) by (apply elbow_None; lra); congruence|]. eexists. split; reflexivity.
  - right. split; [apply elbow_None; auto|reflexivity].
Qed.
Lemma anthro_sols_ok T sols q : anthro_ik r T = Ok (IkOk sols) -> In q sols ->
  exists F0, snd (fk (AnthropomorphicArm a2 a3) q) = Ok F0 /\ dist2 (pos F0) (pos T) <= 2 * Rabs (a2 * a3) * tol /\
    (Rabs ((norm2 (pos T) - a2 ^ 2 - a3 ^ 2) / (2 * a2 * a3)) <= 1 - tol -> pos F0 = pos T).
Proof.
  intros H I. rewrite (anthro_ik_result a2 a3) in H by auto. injection H as H. apply arm_result_ok in H. subst sols.
  apply (arm_sound 0 a2 a3 Hne) in I. destruct I as (q1 & q2 & q3 & -> & X1 & X2 & l & L & X3). rewrite elbow_cos_anthro in X3 by auto.
  destruct (anthro_fk a2 a3 q1 q2 q3) as (F & E & P). exists F. rewrite P. split; [exact E|]. split; [exact X2|]. intros Hc. apply X1, X3. exact Hc.
Qed.
Lemma anthro_correct T sols q : r_tfb r = eye4 -> r_tool r = None -> anthro_ik r T = Ok (IkOk sols) -> In q sols ->
  exists F, snd (fk r q) = Ok F /\ dist2 (pos F) (pos T) <= 2 * Rabs (a2 * a3) * tol /\
    (Rabs ((norm2 (pos T) - a2 ^ 2 - a3 ^ 2) / (2 * a2 * a3)) <= 1 - tol -> pos F = pos T).
Proof. intros B N H I. rewrite (fk_no_base r (AnthropomorphicArm a2 a3)) by auto using Anthro_good. exact (anthro_sols_ok T sols q H I). Qed.
Lemma anthro_base T sols q : rigid (r_tfb r) -> r_tool r = None -> anthro_ik r T = Ok (IkOk sols) -> In q sols ->
  Rabs ((norm2 (pos T) - a2 ^ 2 - a3 ^ 2) / (2 * a2 * a3)) <= 1 - tol -> exists F, snd (fk r q) = Ok F /\ pos F = tapply (r_tfb r) (pos T).
Proof.
  intros B N H I Hc. destruct (anthro_sols_ok T sols q H I) as (F0 & E & _ & P). rewrite <- (P Hc).
  apply (fk_base_pos r (AnthropomorphicArm a2 a3) q F0); auto using Anthro_good.
Qed.
Lemma anthro_unreachable T q1 q2 q3 F : r_tfb r = eye4 -> r_tool r = None -> anthro_ik r T = Ok IkFail -> snd (fk r [q1; q2; q3]) = Ok F -> pos F <> pos T.
Proof.
  intros B N H E P. rewrite (anthro_ik_result a2 a3) in H by auto. injection H as H. apply arm_result_fail in H.
  rewrite (fk_no_base r (AnthropomorphicArm a2 a3)) in E by auto using Anthro_good. destruct (anthro_fk a2 a3 q1 q2 q3) as (F' & E' & P'). rewrite E' in E. injection E as ->.
  rewrite P' in P. rewrite <- P in H. exact (arm_reachable 0 a2 a3 Hne q1 q2 q3 H).
Qed.
Lemma anthro_finds_all T q1 q2 q3 F : r_tfb r = eye4 -> r_tool r = None -> snd (fk r [q1; q2; q3]) = Ok F -> pos F = pos T ->
  0 < vx (pos T) ^ 2 + vy (pos T) ^ 2 -> Rabs (cos q3) <= 1 - tol ->
  exists sols s, anthro_ik r T = Ok (IkOk sols) /\ In s sols /\ Forall2 cong [q1; q2; q3] s.
Proof.
  intros B N E P H1 H2. rewrite (fk_no_base r (AnthropomorphicArm a2 a3)) in E by auto using Anthro_good. destruct (anthro_fk a2 a3 q1 q2 q3) as (F' & E' & P'). rewrite E' in E. injection E as ->.
  rewrite P' in P. rewrite (anthro_ik_result a2 a3) by auto. rewrite <- P in *.
  assert (L : 0 < lxy (arm_pos 0 a2 a3 q1 q2 q3)) by (apply sqrt_lt_R0; auto).
  destruct (arm_complete 0 a2 a3 Hne q1 q2 q3 L H2) as (r1 & r2 & r3 & I & C1 & C2 & C3).
  exists (arm_sols 0 a2 a3 (arm_pos 0 a2 a3 q1 q2 q3)), [r1; r2; r3]. split; [|split; auto]. unfold arm_result. destruct (arm_sols _ _ _ _); [destruct I|reflexivity].
Qed.
End Anthro.

Section Arm2.
Context (a1 a2 a3 : R) (Hne : a2 * a3 <> 0) (r : robot) (K : like r (Arm2 a1 a2 a3)).
Lemma arm2_sols_ok T sols q : arm2_ik r T = Ok (IkOk sols) -> In q sols ->
  exists q1 q2 q3 F0, q = [q1; q2; q3] /\ snd (fk (Arm2 a1 a2 a3) q) = Ok F0 /\ dist2 (pos F0) (pos T) <= 2 * Rabs (a2 * a3) * tol /\ (sin q3 <> 0 -> pos F0 = pos T).
Proof.
  intros H I. rewrite (arm2_ik_result a1 a2 a3) in H by auto. injection H as H. apply arm_result_ok in H. subst sols.
  apply (arm_sound a1 a2 a3 Hne) in I. destruct I as (q1 & q2 & q3 & -> & X1 & X2 & _).
  destruct (arm2_fk_pos a1 a2 a3 q1 q2 q3) as (F & E & P). exists q1, q2, q3, F. rewrite P. auto.
Qed.
Lemma arm2_correct T sols q : r_tfb r = eye4 -> r_tool r = None -> arm2_ik r T = Ok (IkOk sols) -> In q sols ->
  exists q1 q2 q3 F, q = [q1; q2; q3] /\ snd (fk r q) = Ok F /\ dist2 (pos F) (pos T) <= 2 * Rabs (a2 * a3) * tol /\ (sin q3 <> 0 -> pos F = pos T).
Proof. intros B N H I. rewrite (fk_no_base r (Arm2 a1 a2 a3)) by auto using Arm2_good. exact (arm2_sols_ok T sols q H I). Qed.
(** no solution is stretched or folded when the target is not near the limits of either branch *)
Lemma arm2_not_singular T sols q1 q2 q3 : arm2_ik r T = Ok (IkOk sols) -> In [q1; q2; q3] sols -> sin q3 = 0 ->
  exists l, (l = lxy (pos T) \/ l = - lxy (pos T)) /\
    let c3 := ((l - a1) ^ 2 + vz (pos T) ^ 2 - a2 ^ 2 - a3 ^ 2) / (2 * a2 * a3) in 1 - tol < Rabs c3 <= 1 + tol.
Proof.
  intros H I S. rewrite (arm2_ik_result a1 a2 a3) in H by auto. injection H as H. apply arm_result_ok in H. subst sols.
  pose proof I as I'. apply (arm_sound a1 a2 a3 Hne) in I. destruct I as (p1 & p2 & p3 & E & _ & _ & _). clear p1 p2 p3 E.
  unfold arm_sols in I'. apply in_app_or in I'. pose proof (polar (vx (pos T)) (vy (pos T))) as [P1 P2]. pose proof (polar_neg (vx (pos T)) (vy (pos T))) as [N1 N2].
  destruct I' as [I|I].
  - exists (lxy (pos T)). split; auto. pose proof I as I0. apply (branch_sound a1 a2 a3 Hne) in I; auto. destruct I as (p2 & p3 & E & _ & _ & X). injection E as _ _ <-.
    unfold branch in I0. destruct (elbow (elbow_cos a2 a3 (lxy (pos T) - a1) (vz (pos T)))) eqn:Ee; [|destruct I0]. cbv zeta. fold (elbow_cos a2 a3 (lxy (pos T) - a1) (vz (pos T))).
    split; [destruct (Rle_dec (Rabs (elbow_cos a2 a3 (lxy (pos T) - a1) (vz (pos T)))) (1 - tol)); [tauto|lra]|].
    destruct (Rle_dec (Rabs (elbow_cos a2 a3 (lxy (pos T) - a1) (vz (pos T)))) (1 + tol)) as [?|Hn]; auto. apply Rnot_le_lt, elbow_None in Hn. congruence.
  - exists (- lxy (pos T)). split; auto. pose proof I as I0. apply (branch_sound a1 a2 a3 Hne) in I; auto. destruct I as (p2 & p3 & E & _ & _ & X). injection E as _ _ <-.
    unfold branch in I0. destruct (elbow (elbow_cos a2 a3 (- lxy (pos T) - a1) (vz (pos T)))) eqn:Ee; [|destruct I0]. cbv zeta. fold (elbow_cos a2 a3 (- lxy (pos T) - a1) (vz (pos T))).
    split; [destruct (Rle_dec (Rabs (elbow_cos a2 a3 (- lxy (pos T) - a1) (vz (pos T)))) (1 - tol)); [tauto|lra]|].
    destruct (Rle_dec (Rabs (elbow_cos a2 a3 (- lxy (pos T) - a1) (vz (pos T)))) (1 + tol)) as [?|Hn]; auto. apply Rnot_le_lt, elbow_None in Hn. congruence.
Qed.
Lemma arm2_unreachable T q1 q2 q3 F : r_tfb r = eye4 -> r_tool r = None -> arm2_ik r T = Ok IkFail -> snd (fk r [q1; q2; q3]) = Ok F -> pos F <> pos T.
Proof.
  intros B N H E P. rewrite (arm2_ik_result a1 a2 a3) in H by auto. injection H as H. apply arm_result_fail in H.
  rewrite (fk_no_base r (Arm2 a1 a2 a3)) in E by auto using Arm2_good. destruct (arm2_fk_pos a1 a2 a3 q1 q2 q3) as (F' & E' & P'). rewrite E' in E. injection E as ->.
  rewrite P' in P. rewrite <- P in H. exact (arm_reachable a1 a2 a3 Hne q1 q2 q3 H).
Qed.
Lemma arm2_returns T : arm2_ik r T = Ok IkFail \/ exists sols, arm2_ik r T = Ok (IkOk sols) /\ (length sols = 2 \/ length sols = 4)%nat.
Proof.
  rewrite (arm2_ik_result a1 a2 a3) by auto. unfold arm_result, arm_sols, branch. destruct (elbow (elbow_cos a2 a3 (lxy (pos T) - a1) _)), (elbow (elbow_cos a2 a3 (- lxy (pos T) - a1) _)); cbn [app]; cbv zeta; eauto 10.
Qed.
Lemma arm2_finds_all T q1 q2 q3 F : r_tfb r = eye4 -> r_tool r = None -> snd (fk r [q1; q2; q3]) = Ok F -> pos F = pos T ->
  0 < vx (pos T) ^ 2 + vy (pos T) ^ 2 -> Rabs (cos q3) <= 1 - tol ->
  exists sols s, arm2_ik r T = Ok (IkOk sols) /\ In s sols /\ Forall2 cong [q1; q2; q3] s.
Proof.
  intros B N E P H1 H2. rewrite (fk_no_base r (Arm2 a1 a2 a3)) in E by auto using Arm2_good. destruct (arm2_fk_pos a1 a2 a3 q1 q2 q3) as (F' & E' & P'). rewrite E' in E. injection E as ->.
  rewrite P' in P. rewrite (arm2_ik_result a1 a2 a3) by auto. rewrite <- P in *.
  assert (L : 0 < lxy (arm_pos a1 a2 a3 q1 q2 q3)) by (apply sqrt_lt_R0; auto).
  destruct (arm_complete a1 a2 a3 Hne q1 q2 q3 L H2) as (r1 & r2 & r3 & I & C1 & C2 & C3).
  exists (arm_sols a1 a2 a3 (arm_pos a1 a2 a3 q1 q2 q3)), [r1; r2; r3]. split; [|split; auto]. unfold arm_result. destruct (arm_sols _ _ _ _); [destruct I|reflexivity].
Qed.
End Arm2.

(** ** Wrist *)
Lemma wrist_fk_rot d3 r t1 t2 t3 : like r (SphericalWrist d3) -> rigid (r_tfb r) -> r_tool r = None ->
  exists F, snd (fk r [t1; t2; t3]) = Ok F /\ rot F = mmul (rot (r_tfb r)) (zyz t1 t2 t3).
Proof.
  intros K [_ B1 B2] N. rewrite (fk_like r (SphericalWrist d3)) by auto using Wrist_good. rewrite wrist_fk. cbn [bind]. unfold tooled. rewrite N.
  eexists. split; [reflexivity|]. unfold wrist_form. rewrite tmul_blocks by auto. reflexivity.
Qed.
Definition approach (w : wrist) (T : mat4) : vec3 := mapply (mtr (rot (r_tfb (w_rob w)))) (col2 (rot T)).
Lemma wrist_correct d3 w T w' s q : like (w_rob w) (SphericalWrist d3) -> rigid (r_tfb (w_rob w)) -> r_tool (w_rob w) = None -> rotation (rot T) ->
  wrist_ik w T = (w', IkOk s) -> In q (read w' s) -> 0 < vx (approach w T) ^ 2 + vy (approach w T) ^ 2 ->
  exists F, snd (fk (w_rob w') q) = Ok F /\ rot F = rot T.
Proof.
  intros K B N RT H I P. injection H as <- <-. cbn [read w_qsol w_rob] in *. set (Rb := rot (r_tfb (w_rob w))) in *. pose proof (rigid_rot _ B) as RB. fold Rb in RB.
  apply wrist_sound in I; [|apply rotation_mmul; auto using rotation_tr]. destruct I as (t1 & t2 & t3 & -> & X1 & X2).
  destruct (wrist_fk_rot d3 (w_rob w) t1 t2 t3 K B N) as (F & E & ER). exists F. split; auto. rewrite ER. fold Rb. rewrite X2, <- mmul_assoc, rotation_inv_r, mmul_1_l by (auto; apply X1; exact P).
  reflexivity.
Qed.
Lemma wrist_finds_all d3 w T t1 t2 t3 F : like (w_rob w) (SphericalWrist d3) -> rigid (r_tfb (w_rob w)) -> r_tool (w_rob w) = None ->
  snd (fk (w_rob w) [t1; t2; t3]) = Ok F -> rot F = rot T -> sin t2 <> 0 ->
  exists w' s u, wrist_ik w T = (w', IkOk s) /\ In u (read w' s) /\ Forall2 cong [t1; t2; t3] u.
Proof.
  intros K B N E ER S. destruct (wrist_fk_rot d3 (w_rob w) t1 t2 t3 K B N) as (F' & E' & ER'). rewrite E' in E. injection E as ->.
  destruct (wrist_complete t1 t2 t3 S) as (r1 & r2 & r3 & I & C1 & C2 & C3). eexists _, _, [r1; r2; r3]. split; [reflexivity|]. cbn [read w_qsol].
  rewrite <- ER, ER', <- mmul_assoc, (rot_orth _ (rigid_rot _ B)), mmul_1_l. auto.
Qed.
Lemma atan2_0_1 : atan2 0 1 = 0.
Proof. pose proof PI_RGT_0. pose proof (atan2_sin_cos 1 0 ltac:(lra) ltac:(lra)) as E. rewrite sin_0, cos_0 in E. rewrite <- E at 2. f_equal; ring. Qed.
(** a half turn about the vertical axis is answered with no turn at all *)
Lemma wrist_singular : exists T w' s, rigid T /\ wrist_ik (new_wrist 1) T = (w', IkOk s) /\ read w' s <> [] /\
  forall q, In q (read w' s) -> exists F, snd (fk (w_rob w') q) = Ok F /\ rot F <> rot T.
Proof.
  set (H := M3 (-1) 0 0 0 (-1) 0 0 0 1). exists (M4 H v0 v0 1). eexists _, _. split; [split; [split|..]; try reflexivity; unfold H; vring|]. split; [reflexivity|]. cbn [read w_qsol].
  assert (E : wrist_angles (mmul (mtr (rot (r_tfb (w_rob (new_wrist 1))))) (rot (M4 H v0 v0 1))) = [[0; 0; 0]; [0; 0; 0]]).
  { cbn [new_wrist w_rob SphericalWrist robot_init r_tfb eye4 rot]. rewrite mtr_mid, mmul_1_l. unfold wrist_angles, H. cbn [col0 col1 col2 vx vy vz m00 m01 m02 m10 m11 m12 m20 m21 m22].
    replace (0 ^ 2 + 0 ^ 2) with 0 by ring. rewrite sqrt_0, !Ropp_0, atan2_0_0, atan2_0_1. reflexivity. }
  rewrite E. split; [discriminate|]. intros q I. assert (q = [0; 0; 0]) as -> by (destruct I as [<-|[<-|[]]]; reflexivity).
  cbn [w_rob new_wrist]. rewrite wrist_fk. eexists. split; [reflexivity|]. cbn [wrist_form rot]. unfold zyz, rot_z, rot_y, H. rewrite cos_0, sin_0. munf. intros C. apply (f_equal m00) in C. cbn [m00] in C. lra.
Qed.
(** the array handed out by one call is overwritten by the next *)
Lemma wrist_aliased : exists T1 T2, rigid T1 /\ rigid T2 /\
  let (w1, r1) := wrist_ik (new_wrist 1) T1 in let (w2, r2) := wrist_ik w1 T2 in
  exists s, r1 = IkOk s /\ read w1 s <> read w2 s.
Proof.
  exists eye4, (M4 (M3 0 0 1 0 1 0 (-1) 0 0) v0 v0 1). split; [apply rigid_eye|]. split; [split; [split|..]; try reflexivity; vring|].
  cbn [wrist_ik]. exists Alias. split; [reflexivity|]. cbn [read w_qsol w_rob new_wrist SphericalWrist robot_init r_tfb eye4 rot]. rewrite mtr_mid, !mmul_1_l.
  unfold wrist_angles. cbn [mid col0 col1 col2 vx vy vz m00 m01 m02 m10 m11 m12 m20 m21 m22]. replace (0 ^ 2 + 0 ^ 2) with 0 by ring. replace (1 ^ 2 + 0 ^ 2) with 1 by ring.
  rewrite sqrt_0, sqrt_1, atan2_0_1. intros E. injection E as _ E _ _ _ _.
  pose proof (atan2_sin_cos 1 (PI / 2) ltac:(lra) ltac:(pose proof PI_RGT_0; lra)) as Q. rewrite sin_PI2, cos_PI2 in Q. replace (1 * 1) with 1 in Q by ring. replace (1 * 0) with 0 in Q by ring.
  rewrite Q in E. pose proof PI_RGT_0. lra.
Qed.

(** ** Kuka *)
Section Kuka.
Context (a1 a2 d4 d6 : R) (Hne : a2 * d4 <> 0).
Lemma kuka_returns k T : kuka_ok a1 a2 d4 d6 k -> snd (kuka_ik k T) = Ok IkFail \/ exists sols, snd (kuka_ik k T) = Ok (IkOk (Own sols)) /\ (length sols = 4 \/ length sols = 8)%nat.
Proof.
  intros K. destruct (kuka_ik_spec a1 a2 d4 d6 Hne k T K) as (_ & _ & ->). set (X := unmount (k_rob k) T).
  assert (E : length (kuka_sols a1 a2 d4 d6 X) = (2 * length (arm_sols a1 a2 d4 (centre d6 X)))%nat).
  { unfold kuka_sols. pose proof (arm_sols_three a1 a2 d4 (centre d6 X)) as H. induction H as [|q qs Hq _ IH]; auto. cbn [flat_map]. rewrite app_length, IH. cbn [length].
    destruct q as [|q1 [|q2 [|q3 [|]]]]; try discriminate Hq. cbn [arm_wrist]. rewrite map_length. cbn [wrist_angles length]. lia. }
  destruct (kuka_sols a1 a2 d4 d6 X) as [|s ss]; auto. right. exists (s :: ss). split; auto. rewrite E.
  unfold arm_sols, branch in *. destruct (elbow (elbow_cos a2 d4 (lxy _ - a1) _)), (elbow (elbow_cos a2 d4 (- lxy _ - a1) _)); cbn [app length Nat.mul Nat.add] in *; auto. discriminate E.
Qed.
(** C53 with the error in the singular elbow *)
Lemma kuka_correct k T s w q : kuka_ok a1 a2 d4 d6 k -> rigid (r_tfb (k_rob k)) -> rigid_tool (k_rob k) -> rigid T ->
  snd (kuka_ik k T) = Ok (IkOk s) -> In q (read w s) ->
  exists q1 q2 q3 q4 q5 q6 F, q = [q1; q2; q3; q4; q5; q6] /\ snd (fk (k_rob k) q) = Ok F /\
    (sin q5 <> 0 -> cos q3 <> 0 -> F = T) /\
    (sin q5 <> 0 -> rot F = rot T /\ dist2 (pos F) (pos T) <= 2 * Rabs (a2 * d4) * tol).
Proof.
  intros K B C RT H I. pose proof (ko_rob _ _ _ _ _ K) as L. destruct (kuka_ik_spec a1 a2 d4 d6 Hne k T K) as (_ & _ & E). rewrite E in H. clear E.
  set (X := unmount (k_rob k) T) in *. assert (RX : rigid X) by (apply unmount_rigid; auto).
  assert (I' : In q (kuka_sols a1 a2 d4 d6 X)). { destruct (kuka_sols a1 a2 d4 d6 X) eqn:EX; [discriminate|]. injection H as <-. exact I. }
  destruct (kuka_sols_sound a1 a2 d4 d6 Hne X q RX I') as (q1 & q2 & q3 & q4 & q5 & q6 & -> & S1 & S2 & _).
  exists q1, q2, q3, q4, q5, q6, (mount (k_rob k) (kuka_form a1 a2 d4 d6 q1 q2 q3 q4 q5 q6)). split; auto. split; [apply kuka_fk_mount; auto|]. split.
  - intros H5 H3. rewrite (S2 H5 H3). apply mount_unmount; auto.
  - intros H5. destruct (S1 H5) as [E1 E2]. destruct (mount_dist (k_rob k) (kuka_form a1 a2 d4 d6 q1 q2 q3 q4 q5 q6) X B C) as [M1 M2]; auto; [apply kuka_form_centre|].
    unfold X in M1, M2. rewrite mount_unmount in M1, M2 by auto. fold X in M2. rewrite M1, M2. auto.
Qed.
Lemma kuka_unreachable k T q1 q2 q3 q4 q5 q6 F : kuka_ok a1 a2 d4 d6 k -> rigid (r_tfb (k_rob k)) -> rigid_tool (k_rob k) ->
  snd (kuka_ik k T) = Ok IkFail -> snd (fk (k_rob k) [q1; q2; q3; q4; q5; q6]) = Ok F -> F <> T.
Proof.
  intros K B C H E ->. pose proof (ko_rob _ _ _ _ _ K) as L. destruct (kuka_ik_spec a1 a2 d4 d6 Hne k T K) as (_ & _ & E2). rewrite E2 in H.
  rewrite (kuka_fk_mount a1 a2 d4 d6) in E by auto. injection E as <-. rewrite unmount_mount in H by auto.
  pose proof (kuka_sols_reachable a1 a2 d4 d6 Hne q1 q2 q3 q4 q5 q6) as N. destruct (kuka_sols _ _ _ _ _); [congruence|discriminate].
Qed.
Lemma kuka_finds_all k q1 q2 q3 q4 q5 q6 T : kuka_ok a1 a2 d4 d6 k -> rigid (r_tfb (k_rob k)) -> rigid_tool (k_rob k) ->
  snd (fk (k_rob k) [q1; q2; q3; q4; q5; q6]) = Ok T ->
  0 < lxy (kuka_centre a1 a2 d4 q1 q2 q3) -> Rabs (sin q3) <= 1 - tol -> sin q5 <> 0 ->
  exists sols s, snd (kuka_ik k T) = Ok (IkOk (Own sols)) /\ In s sols /\ Forall2 cong [q1; q2; q3; q4; q5; q6] s.
Proof.
  intros K B C E H1 H3 H5. pose proof (ko_rob _ _ _ _ _ K) as L. destruct (kuka_ik_spec a1 a2 d4 d6 Hne k T K) as (_ & _ & ->).
  rewrite (kuka_fk_mount a1 a2 d4 d6) in E by auto. injection E as <-. rewrite unmount_mount by auto.
  destruct (kuka_sols_complete a1 a2 d4 d6 Hne q1 q2 q3 q4 q5 q6 H1 H3 H5) as (s & I & G). exists (kuka_sols a1 a2 d4 d6 (kuka_form a1 a2 d4 d6 q1 q2 q3 q4 q5 q6)), s.
  split; auto. destruct (kuka_sols _ _ _ _ _); [destruct I|reflexivity].
Qed.
Lemma kuka_limits k T s w q : kuka_ok a1 a2 d4 d6 k -> snd (kuka_ik k T) = Ok (IkOk s) -> In q (read w s) ->
  exists q1 q2 q3 q4 q5 q6, q = [q1; q2; q3; q4; q5; q6] /\
  - PI < q1 <= PI /\ - PI < q2 <= PI /\ - PI / 2 < q3 <= 3 * PI / 2 /\ - PI < q4 <= PI /\ - PI < q5 <= PI /\ - PI < q6 <= PI.
Proof.
  intros K H I. destruct (kuka_ik_spec a1 a2 d4 d6 Hne k T K) as (_ & _ & E). rewrite E in H. clear E. set (X := unmount (k_rob k) T) in *.
  apply (kuka_sols_bounds a1 a2 d4 d6 X). destruct (kuka_sols a1 a2 d4 d6 X) eqn:EX; [discriminate|]. injection H as <-. exact I.
Qed.
Lemma kuka_own k T s w w' : kuka_ok a1 a2 d4 d6 k -> snd (kuka_ik k T) = Ok (IkOk s) -> read w s = read w' s.
Proof.
  intros K H. destruct (kuka_ik_spec a1 a2 d4 d6 Hne k T K) as (_ & _ & E). rewrite E in H. destruct (kuka_sols _ _ _ _ _); [discriminate|]. injection H as <-. reflexivity.
Qed.
End Kuka.

Lemma default_ne : 0.6 * 0.62 <> 0. Proof. lra. Qed.
Definition default_kuka : kuka := new_kuka 0.18 0.6 0.62 0.115.
(** q3 = 7/6 pi is returned for a pose of the default robot *)
Lemma kuka_over_limit : exists T sols q1 q2 q3 q4 q5 q6, rigid T /\ snd (kuka_ik default_kuka T) = Ok (IkOk (Own sols)) /\ In [q1; q2; q3; q4; q5; q6] sols /\ q3 > PI /\
  nth_error (r_limits (k_rob default_kuka)) 2 = Some (- PI, PI).
Proof.
  pose proof PI_RGT_0 as PP. set (q3 := PI / 6 + PI).
  assert (S3 : sin q3 = - (1 / 2)) by (unfold q3; rewrite neg_sin, sin_PI6; field).
  destruct (kuka_finds_all 0.18 0.6 0.62 0.115 default_ne default_kuka 0 0 q3 0 (PI / 2) 0 _ (new_kuka_ok _ _ _ _) rigid_eye I (kuka_fk _ _ _ _ 0 0 q3 0 (PI / 2) 0)) as (sols & s & E & In1 & G).
  - apply sqrt_lt_R0. unfold kuka_centre. cbn [vx vy]. rewrite sin_0, cos_0, Rplus_0_l, S3. lra.
  - rewrite S3, Rabs_Ropp, Rabs_pos_eq by lra. unfold tol. lra.
  - rewrite sin_PI2. lra.
  - exists (kuka_form 0.18 0.6 0.62 0.115 0 0 q3 0 (PI / 2) 0), sols.
    pose proof (kuka_limits 0.18 0.6 0.62 0.115 default_ne default_kuka _ _ (new_wrist 1) s (new_kuka_ok _ _ _ _) E In1) as (p1 & p2 & p3 & p4 & p5 & p6 & -> & _ & _ & B3 & _).
    exists p1, p2, p3, p4, p5, p6. split; [apply kuka_form_centre|]. split; auto. split; auto. split; [|reflexivity].
    inversion G as [|? ? ? ? _ G2]; subst. inversion G2 as [|? ? ? ? _ G3]; subst. inversion G3 as [|? ? ? ? G4 _]; subst. destruct G4 as [n G4]. unfold q3 in G4.
    destruct (Z_lt_le_dec n 0) as [N|N].
    + apply Zlt_le_succ in N. apply IZR_le in N. unfold Z.succ in N. rewrite plus_IZR in N. nra.
    + destruct (Z.eq_dec n 0) as [->|N']; [lra|]. assert (1 <= n)%Z by lia. apply IZR_le in H. nra.
Qed.

(** ** KukaOnRail *)
Record rail_ok (a1 a2 d4 d6 : R) (rl : rail) : Prop := {
  ro_rob : like (rl_rob rl) (KukaOnRail a1 a2 d4 d6);
  ro_kuka : kuka_ok 0.18 0.6 0.62 0.115 (rl_kuka rl);
  ro_tool : r_tool (k_rob (rl_kuka rl)) = None }.
Lemma new_rail_ok a1 a2 d4 d6 : rail_ok a1 a2 d4 d6 (new_rail a1 a2 d4 d6).
Proof. split; [apply like_refl, Rail_good|apply new_kuka_ok|reflexivity]. Qed.
Lemma rail_form_rigid q : rigid (rail_form q).
Proof. unfold rail_form. split; try reflexivity. split; cbn [rot]; vring. Qed.
Lemma rail_fk_mount a1 a2 d4 d6 r q0 q1 q2 q3 q4 q5 q6 : like r (KukaOnRail a1 a2 d4 d6) ->
  snd (fk r [q0; q1; q2; q3; q4; q5; q6]) = Ok (mount r (tmul (rail_form q0) (kuka_form a1 a2 d4 d6 q1 q2 q3 q4 q5 q6))).
Proof. intros K. rewrite (fk_like r (KukaOnRail a1 a2 d4 d6)); auto using Rail_good. rewrite kuka_on_rail_fk. reflexivity. Qed.
Lemma set_tfb_like r r0 T : like r r0 -> like (set_tfb r T) r0.
Proof. intros [[G1 G2] H]. split; auto. split; auto. Qed.
Lemma rail_ik_spec a1 a2 d4 d6 rl T q0 : rail_ok a1 a2 d4 d6 rl ->
  rail_ok a1 a2 d4 d6 (fst (rail_ik rl T q0)) /\
  r_tfb (rl_rob (fst (rail_ik rl T q0))) = r_tfb (rl_rob rl) /\ r_tool (rl_rob (fst (rail_ik rl T q0))) = r_tool (rl_rob rl) /\
  snd (rail_ik rl T q0) = Ok (match kuka_sols 0.18 0.6 0.62 0.115 (tmul (tf_inverse (rail_form q0)) (unmount (rl_rob rl) T)) with [] => IkFail | s => IkOk (Own (map (cons q0) s)) end).
Proof.
  intros [K1 K2 K3]. unfold rail_ik. destruct K1 as [[G1 G2] H]. destruct (r_links (rl_rob rl)) as [|l ls] eqn:EL; [discriminate H|].
  inversion G1 as [|? ? C1 C2]; subst.
  pose proof (link_transform_fst l q0 C1) as [F1 F2]. pose proof (link_transform_snd l q0 C1) as F3.
  assert (HL : dhjt l = (DH 0 (PI / 2) 0 0, JP)) by (apply (f_equal (hd (dhjt l))) in H; exact H). unfold dhjt in HL. injection HL as HL1 HL2.
  rewrite HL2 in F3. unfold lspec in F3. rewrite HL1, HL2 in F3. cbn [da dalpha dtheta] in F3. rewrite rail_link in F3.
  destruct (link_transform l q0) as [l1 T1]. cbn [fst snd] in *. subst T1.
  set (k' := Kk (set_tfb (k_rob (rl_kuka rl)) (rail_form q0)) (k_arm (rl_kuka rl)) (k_wrist (rl_kuka rl))).
  assert (KO : kuka_ok 0.18 0.6 0.62 0.115 k') by (destruct K2; split; auto; apply set_tfb_like; auto).
  fold (unmount (rl_rob rl) T). destruct (kuka_ik_spec 0.18 0.6 0.62 0.115 default_ne k' (unmount (rl_rob rl) T) KO) as (S1 & S2 & S3).
  destruct (kuka_ik k' (unmount (rl_rob rl) T)) as [k1 res1]. cbn [fst snd] in *. subst res1.
  assert (DL : dhjt l1 = dhjt l) by (unfold dhjt; apply (f_equal l_dh) in F2 as X1; apply (f_equal l_jt) in F2 as X2; cbn in X1, X2; congruence).
  split; [split|].
  - cbn [rl_rob]. split; [split|].
    + cbn. constructor; auto.
    + unfold ndof in *. cbn. rewrite EL in G2. exact G2.
    + cbn [set_links r_links map]. rewrite DL. exact H.
  - cbn. auto.
  - cbn. rewrite S2. exact K3.
  - split; [reflexivity|]. split; [reflexivity|]. cbn [bind].
    assert (U : unmount (k_rob k') (unmount (rl_rob rl) T) = tmul (tf_inverse (rail_form q0)) (unmount (rl_rob rl) T)).
    { unfold unmount at 1. cbn [k' k_rob set_tfb r_tfb r_tool]. rewrite K3. reflexivity. }
    rewrite U. destruct (kuka_sols _ _ _ _ _); reflexivity.
Qed.
(** C54, and for other dimensions the pose that is reached instead *)
Lemma rail_sols_sound a1 a2 d4 d6 rl T q0 s w q : rail_ok a1 a2 d4 d6 rl -> rigid (r_tfb (rl_rob rl)) -> rigid_tool (rl_rob rl) -> rigid T ->
  snd (rail_ik rl T q0) = Ok (IkOk s) -> In q (read w s) ->
  exists q1 q2 q3 q4 q5 q6, q = [q0; q1; q2; q3; q4; q5; q6] /\ 
   let X := kuka_form 0.18 0.6 0.62 0.115 q1 q2 q3 q4 q5 q6 in
    (sin q5 <> 0 -> cos q3 <> 0 -> mount (rl_rob rl) (tmul (rail_form q0) X) = T) /\
    (sin q5 <> 0 -> rot (mount (rl_rob rl) (tmul (rail_form q0) X)) = rot T /\ dist2 (pos (mount (rl_rob rl) (tmul (rail_form q0) X))) (pos T) <= 2 * Rabs (0.6 * 0.62) * tol).
Proof.
  intros K B C RT H I. destruct (rail_ik_spec a1 a2 d4 d6 rl T q0 K) as (_ & _ & _ & E). rewrite E in H. clear E.
  set (U := unmount (rl_rob rl) T) in *. assert (RU : rigid U) by (apply unmount_rigid; auto).
  set (Y := tmul (tf_inverse (rail_form q0)) U) in *. assert (RY : rigid Y) by (apply rigid_tmul; auto; apply tf_inverse_rigid, rail_form_rigid).
  assert (EY : tmul (rail_form q0) Y = U) by (unfold Y; rewrite <- tmul_assoc, tf_inverse_r, tmul_1_l by apply rail_form_rigid; reflexivity).
  assert (I' : In q (map (cons q0) (kuka_sols 0.18 0.6 0.62 0.115 Y))). { destruct (kuka_sols 0.18 0.6 0.62 0.115 Y); [discriminate|]. injection H as <-. exact I. }
  apply in_map_iff in I'. destruct I' as (q' & <- & I').
  destruct (kuka_sols_sound 0.18 0.6 0.62 0.115 default_ne Y q' RY I') as (q1 & q2 & q3 & q4 & q5 & q6 & -> & S1 & S2 & _).
  exists q1, q2, q3, q4, q5, q6. split; auto. cbv zeta. set (X := kuka_form _ _ _ _ _ _ _ _ _ _) in *. assert (RX : rigid X) by apply kuka_form_centre. split.
  - intros H5 H3. rewrite (S2 H5 H3), EY. apply mount_unmount; auto.
  - intros H5. destruct (S1 H5) as [E1 E2].
    assert (D : rot (tmul (rail_form q0) X) = rot (tmul (rail_form q0) Y) /\ dist2 (pos (tmul (rail_form q0) X)) (pos (tmul (rail_form q0) Y)) = dist2 (pos X) (pos Y)).
    { exact (mount_dist (set_tfb (robot_init []) (rail_form q0)) X Y (rail_form_rigid q0) Logic.I RX RY E1). }
    rewrite EY in D. destruct D as [D1 D2].
    destruct (mount_dist (rl_rob rl) (tmul (rail_form q0) X) U B C) as [M1 M2]; auto; [apply rigid_tmul; auto using rail_form_rigid|].
    unfold U in M1, M2. rewrite mount_unmount in M1, M2 by auto. fold U in M2. rewrite M1, M2, D2. auto.
Qed.
Lemma rail_correct rl T q0 s w q : rail_ok 0.18 0.6 0.62 0.115 rl -> rigid (r_tfb (rl_rob rl)) -> rigid_tool (rl_rob rl) -> rigid T ->
  snd (rail_ik rl T q0) = Ok (IkOk s) -> In q (read w s) ->
  exists q1 q2 q3 q4 q5 q6 F, q = [q0; q1; q2; q3; q4; q5; q6] /\ snd (fk (rl_rob rl) q) = Ok F /\
    (sin q5 <> 0 -> cos q3 <> 0 -> F = T) /\
    (sin q5 <> 0 -> rot F = rot T /\ dist2 (pos F) (pos T) <= 2 * Rabs (0.6 * 0.62) * tol).
Proof.
  intros K B C RT H I. destruct (rail_sols_sound _ _ _ _ rl T q0 s w q K B C RT H I) as (q1 & q2 & q3 & q4 & q5 & q6 & -> & S).
  exists q1, q2, q3, q4, q5, q6, (mount (rl_rob rl) (tmul (rail_form q0) (kuka_form 0.18 0.6 0.62 0.115 q1 q2 q3 q4 q5 q6))). split; auto. split; [apply rail_fk_mount; apply K|exact S].
Qed.
Lemma rail_returns a1 a2 d4 d6 rl T q0 : rail_ok a1 a2 d4 d6 rl -> exists x, snd (rail_ik rl T q0) = Ok x.
Proof. intros K. destruct (rail_ik_spec a1 a2 d4 d6 rl T q0 K) as (_ & _ & _ & ->). eauto. Qed.
Lemma rail_finds_all rl q0 q1 q2 q3 q4 q5 q6 T : rail_ok 0.18 0.6 0.62 0.115 rl -> rigid (r_tfb (rl_rob rl)) -> rigid_tool (rl_rob rl) ->
  snd (fk (rl_rob rl) [q0; q1; q2; q3; q4; q5; q6]) = Ok T ->
  0 < lxy (kuka_centre 0.18 0.6 0.62 q1 q2 q3) -> Rabs (sin q3) <= 1 - tol -> sin q5 <> 0 ->
  exists sols s, snd (rail_ik rl T q0) = Ok (IkOk (Own sols)) /\ In (q0 :: s) sols /\ Forall2 cong [q1; q2; q3; q4; q5; q6] s.
Proof.
  intros K B C E H1 H3 H5. destruct (rail_ik_spec _ _ _ _ rl T q0 K) as (_ & _ & _ & ->). rewrite (rail_fk_mount 0.18 0.6 0.62 0.115) in E by apply K. injection E as <-.
  rewrite unmount_mount by auto. rewrite <- tmul_assoc, tf_inverse_l, tmul_1_l by apply rail_form_rigid.
  destruct (kuka_sols_complete 0.18 0.6 0.62 0.115 default_ne q1 q2 q3 q4 q5 q6 H1 H3 H5) as (s & I & G).
  exists (map (cons q0) (kuka_sols 0.18 0.6 0.62 0.115 (kuka_form 0.18 0.6 0.62 0.115 q1 q2 q3 q4 q5 q6))), s.
  split; [|split; auto using in_map]. destruct (kuka_sols _ _ _ _ _); [destruct I|reflexivity].
Qed.
(** a robot built with a longer first link answers with joint values of the default robot *)
Lemma rail_wrong_dims : exists T sols q F, rigid T /\ snd (rail_ik (new_rail 1 0.6 0.62 0.115) T 0) = Ok (IkOk (Own sols)) /\ In q sols /\
  snd (fk (rl_rob (new_rail 1 0.6 0.62 0.115)) q) = Ok F /\ F <> T.
Proof.
  set (T := tmul (rail_form 0) (kuka_form 0.18 0.6 0.62 0.115 0 0 0 0 (PI / 2) 0)).
  assert (RT : rigid T) by (apply rigid_tmul; [apply rail_form_rigid|apply kuka_form_centre]).
  destruct (rail_finds_all (new_rail 0.18 0.6 0.62 0.115) 0 0 0 0 0 (PI / 2) 0 T (new_rail_ok _ _ _ _) rigid_eye I) as (sols & s & E & I1 & G).
  - apply kuka_on_rail_fk.
  - apply sqrt_lt_R0. unfold kuka_centre. cbn [vx vy]. rewrite !Rplus_0_l, sin_0, cos_0. lra.
  - rewrite sin_0, Rabs_R0. unfold tol. lra.
  - rewrite sin_PI2. lra.
  - assert (E' : snd (rail_ik (new_rail 1 0.6 0.62 0.115) T 0) = Ok (IkOk (Own sols))).
    { destruct (rail_ik_spec _ _ _ _ (new_rail 1 0.6 0.62 0.115) T 0 (new_rail_ok _ _ _ _)) as (_ & _ & _ & ->).
      destruct (rail_ik_spec _ _ _ _ (new_rail 0.18 0.6 0.62 0.115) T 0 (new_rail_ok _ _ _ _)) as (_ & _ & _ & E2). rewrite E2 in E. exact E. }
    pose proof (rail_correct (new_rail 0.18 0.6 0.62 0.115) T 0 _ (new_wrist 1) (0 :: s) (new_rail_ok _ _ _ _) rigid_eye I RT E I1) as (q1 & q2 & q3 & q4 & q5 & q6 & F & Eq & EF & CF & _).
    injection Eq as ->. assert (GC : Forall2 cong [0; 0; 0; 0; PI / 2; 0] [q1; q2; q3; q4; q5; q6]) by auto. clear G.
    inversion GC as [|? ? ? ? _ G2]; subst. inversion G2 as [|? ? ? ? _ G3]; subst. inversion G3 as [|? ? ? ? C3 G4]; subst. inversion G4 as [|? ? ? ? _ G5]; subst. inversion G5 as [|? ? ? ? C5 _]; subst.
    destruct (cong_cos_sin _ _ C3) as [K3 _]. destruct (cong_cos_sin _ _ C5) as [_ K5]. rewrite cos_0 in K3. rewrite sin_PI2 in K5.
    specialize (CF ltac:(lra) ltac:(lra)). subst F.
    exists T, sols, (0 :: [q1; q2; q3; q4; q5; q6]). eexists. split; auto. split; [exact E'|]. split; auto. split; [apply kuka_on_rail_fk|].
    cbn [new_rail rl_rob] in EF. rewrite kuka_on_rail_fk in EF. apply Ok_inj in EF. rewrite <- EF. intros X. apply rigid_cancel_l in X; [|apply rail_form_rigid].
    apply (f_equal (centre 0.115)) in X. destruct (kuka_form_centre 1 0.6 0.62 0.115 q1 q2 q3 q4 q5 q6) as (Z1 & _). destruct (kuka_form_centre 0.18 0.6 0.62 0.115 q1 q2 q3 q4 q5 q6) as (Z2 & _).
    rewrite Z1, Z2 in X. unfold kuka_centre in X. injection X as X1 X2. pose proof (sin2_cos2 q1) as SC. unfold Rsqr in SC.
    assert (cos q1 = 0) by lra. assert (sin q1 = 0) by lra. nra.
Qed.

(** ** Histories *)
(** a method call on a Kuka: one of the base class, or ik *)
Inductive kop : Type := KRob (o : op) | KIk (T : mat4).
Definition run_kop prim (k : kuka) (o : kop) : kuka :=
  match o with KRob o => Kk (run_op prim (k_rob k) o) (k_arm k) (k_wrist k) | KIk T => fst (kuka_ik k T) end.
Definition run_kops prim (k : kuka) (os : list kop) : kuka := fold_left (run_kop prim) os k.
Lemma run_kops_keep prim a1 a2 d4 d6 : a2 * d4 <> 0 -> forall os k, kuka_ok a1 a2 d4 d6 k ->
  let k' := run_kops prim k os in kuka_ok a1 a2 d4 d6 k' /\ r_tfb (k_rob k') = r_tfb (k_rob k) /\ r_tool (k_rob k') = r_tool (k_rob k).
Proof.
  intros Hne os k K k'. subst k'. unfold run_kops. revert k K. induction os as [|o os IH]; intros k K; [auto|]. cbn [fold_left].
  assert (S : kuka_ok a1 a2 d4 d6 (run_kop prim k o) /\ r_tfb (k_rob (run_kop prim k o)) = r_tfb (k_rob k) /\ r_tool (k_rob (run_kop prim k o)) = r_tool (k_rob k)).
  { destruct o as [o|T]; cbn [run_kop].
    - destruct K as [K1 K2 K3 K4]. destruct (run_op_keep prim (k_rob k) o (proj1 K1)) as [G E]. destruct (reset_like _ _ _ G E K1) as (L & B & N). cbn [k_rob]. split; [split; auto|auto].
    - destruct (kuka_ik_spec a1 a2 d4 d6 Hne k T K) as (S1 & S2 & _). rewrite S2. auto. }
  destruct S as (S1 & S2 & S3). destruct (IH _ S1) as (I1 & I2 & I3). split; auto. split; congruence.
Qed.
Lemma kuka_ik_history prim a1 a2 d4 d6 k os T : a2 * d4 <> 0 -> kuka_ok a1 a2 d4 d6 k -> snd (kuka_ik (run_kops prim k os) T) = snd (kuka_ik k T).
Proof.
  intros Hne K. destruct (run_kops_keep prim a1 a2 d4 d6 Hne os k K) as (K' & B & N).
  destruct (kuka_ik_spec a1 a2 d4 d6 Hne k T K) as (_ & _ & ->). destruct (kuka_ik_spec a1 a2 d4 d6 Hne _ T K') as (_ & _ & ->). unfold unmount. rewrite B, N. reflexivity.
Qed.
(** on a KukaOnRail, and on its helper Kuka (whose base each rail ik sets anew) *)
Inductive rop : Type := RRob (o : op) | RIk (T : mat4) (q : R).
Definition run_rop prim (rl : rail) (o : rop) : rail :=
  match o with RRob o => Rl (run_op prim (rl_rob rl) o) (rl_kuka rl) | RIk T q => fst (rail_ik rl T q) end.
Definition run_rops prim (rl : rail) (os : list rop) : rail := fold_left (run_rop prim) os rl.
Lemma run_rops_keep prim a1 a2 d4 d6 : forall os rl, rail_ok a1 a2 d4 d6 rl ->
  let rl' := run_rops prim rl os in rail_ok a1 a2 d4 d6 rl' /\ r_tfb (rl_rob rl') = r_tfb (rl_rob rl) /\ r_tool (rl_rob rl') = r_tool (rl_rob rl).
Proof.
  intros os rl K rl'. subst rl'. unfold run_rops. revert rl K. induction os as [|o os IH]; intros rl K; [auto|]. cbn [fold_left].
  assert (S : rail_ok a1 a2 d4 d6 (run_rop prim rl o) /\ r_tfb (rl_rob (run_rop prim rl o)) = r_tfb (rl_rob rl) /\ r_tool (rl_rob (run_rop prim rl o)) = r_tool (rl_rob rl)).
  { destruct o as [o|T q]; cbn [run_rop].
    - destruct K as [K1 K2 K3]. destruct (run_op_keep prim (rl_rob rl) o (proj1 K1)) as [G E]. destruct (reset_like _ _ _ G E K1) as (L & B & N). cbn [rl_rob]. split; [split; auto|auto].
    - destruct (rail_ik_spec a1 a2 d4 d6 rl T q K) as (S1 & S2 & S3 & _). auto. }
  destruct S as (S1 & S2 & S3). destruct (IH _ S1) as (I1 & I2 & I3). split; auto. split; congruence.
Qed.
Lemma rail_ik_history prim a1 a2 d4 d6 rl os T q : rail_ok a1 a2 d4 d6 rl -> snd (rail_ik (run_rops prim rl os) T q) = snd (rail_ik rl T q).
Proof.
  intros K. destruct (run_rops_keep prim a1 a2 d4 d6 os rl K) as (K' & B & N).
  destruct (rail_ik_spec a1 a2 d4 d6 rl T q K) as (_ & _ & _ & ->). destruct (rail_ik_spec a1 a2 d4 d6 _ T q K') as (_ & _ & _ & ->). unfold unmount. rewrite B, N. reflexivity.
Qed.
Lemma rail_unreachable rl T q0 q1 q2 q3 q4 q5 q6 F : rail_ok 0.18 0.6 0.62 0.115 rl -> rigid (r_tfb (rl_rob rl)) -> rigid_tool (rl_rob rl) ->
  snd (rail_ik rl T q0) = Ok IkFail -> snd (fk (rl_rob rl) [q0; q1; q2; q3; q4; q5; q6]) = Ok F -> F <> T.
Proof.
  intros K B C H E ->. destruct (rail_ik_spec _ _ _ _ rl T q0 K) as (_ & _ & _ & E2). rewrite E2 in H.
  rewrite (rail_fk_mount 0.18 0.6 0.62 0.115) in E by apply K. injection E as <-. rewrite unmount_mount in H by auto. rewrite <- tmul_assoc, tf_inverse_l, tmul_1_l in H by apply rail_form_rigid.
  pose proof (kuka_sols_reachable 0.18 0.6 0.62 0.115 default_ne q1 q2 q3 q4 q5 q6) as N. destruct (kuka_sols _ _ _ _ _); [congruence|discriminate].
Qed.
Lemma rail_dims_ignored a1 a2 d4 d6 rl rl' T q0 : rail_ok a1 a2 d4 d6 rl -> rail_ok 0.18 0.6 0.62 0.115 rl' ->
  r_tfb (rl_rob rl) = r_tfb (rl_rob rl') -> r_tool (rl_rob rl) = r_tool (rl_rob rl') -> snd (rail_ik rl T q0) = snd (rail_ik rl' T q0).
Proof.
  intros K K' B N. destruct (rail_ik_spec _ _ _ _ rl T q0 K) as (_ & _ & _ & ->). destruct (rail_ik_spec _ _ _ _ rl' T q0 K') as (_ & _ & _ & ->). unfold unmount. rewrite B, N. reflexivity.
Qed.
