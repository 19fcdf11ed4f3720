(** * Proofs about the wrist, Kuka and KukaOnRail inverse kinematics. *)
From Coq Require Import Reals Lra Psatz List Bool Arith Lia.
From Verif Require Import PyBase Mat Util UtilProofs Geometry Robot RobotProofs RobotForms Ik IkProofs.
Import ListNotations.
Local Open Scope R_scope.

(** ** The wrist *)
Lemma rotation_adj A : rotation A -> mtr A = madj A.
Proof. intros [H D]. rewrite <- (mmul_1_r (mtr A)). rewrite <- (mscale_1 mid), <- D, <- madj_r, <- mmul_assoc, H, mmul_1_l. reflexivity. Qed.
(** the third column and the third row determine a rotation, unless the axis is vertical *)
Lemma rotation_determined A B : rotation A -> rotation B -> col2 A = col2 B -> m20 A = m20 B -> m21 A = m21 B -> 0 < m02 A ^ 2 + m12 A ^ 2 -> A = B.
Proof.
  intros HA HB E2 E20 E21 P. pose proof (rotation_adj A HA) as JA. pose proof (rotation_adj B HB) as JB.
  pose proof (rot_orth _ HA) as OA. pose proof (rot_orth _ HB) as OB. clear HA HB.
  destruct A as [a00 a01 a02 a10 a11 a12 a20 a21 a22], B as [b00 b01 b02 b10 b11 b12 b20 b21 b22]. unfold madj in *. munf.
  injection E2 as -> -> ->. subst b20 b21.
  injection JA as _ _ JA02 _ _ JA12 _ _ _. injection JB as _ _ JB02 _ _ JB12 _ _ _.
  injection OA as _ _ OA02 _ _ OA12 _ _ _. injection OB as _ _ OB02 _ _ OB12 _ _ _.
  set (N := b02 ^ 2 + b12 ^ 2) in *.
  assert (X : N * (a00 - b00) = 0) by (transitivity (b02 * ((a00 * b02 + a10 * b12 + a20 * b22) - (b00 * b02 + b10 * b12 + a20 * b22)) - b12 * ((b02 * a10 - a00 * b12) - (b02 * b10 - b00 * b12))); [unfold N; ring|rewrite OA02, OB02, <- JA12, <- JB12; ring]).
  assert (Y : N * (a10 - b10) = 0) by (transitivity (b12 * ((a00 * b02 + a10 * b12 + a20 * b22) - (b00 * b02 + b10 * b12 + a20 * b22)) + b02 * ((b02 * a10 - a00 * b12) - (b02 * b10 - b00 * b12))); [unfold N; ring|rewrite OA02, OB02, <- JA12, <- JB12; ring]).
  assert (Z : N * (a01 - b01) = 0) by (transitivity (b02 * ((a01 * b02 + a11 * b12 + a21 * b22) - (b01 * b02 + b11 * b12 + a21 * b22)) + b12 * ((a01 * b12 - b02 * a11) - (b01 * b12 - b02 * b11))); [unfold N; ring|rewrite OA12, OB12, <- JA02, <- JB02; ring]).
  assert (W : N * (a11 - b11) = 0) by (transitivity (b12 * ((a01 * b02 + a11 * b12 + a21 * b22) - (b01 * b02 + b11 * b12 + a21 * b22)) - b02 * ((a01 * b12 - b02 * a11) - (b01 * b12 - b02 * b11))); [unfold N; ring|rewrite OA12, OB12, <- JA02, <- JB02; ring]).
  apply Rmult_integral in X. apply Rmult_integral in Y. apply Rmult_integral in Z. apply Rmult_integral in W.
  assert (a00 = b00) by lra. assert (a10 = b10) by lra. assert (a01 = b01) by lra. assert (a11 = b11) by lra.
  congruence.
Qed.
Lemma zyz_rotation a b c : rotation (zyz a b c).
Proof. unfold zyz. auto using rotation_mmul, rot_z_rotation, rot_y_rotation. Qed.
Lemma zyz_entries a b c : let A := zyz a b c in
  m02 A = cos a * sin b /\ m12 A = sin a * sin b /\ m22 A = cos b /\ m20 A = - sin b * cos c /\ m21 A = sin b * sin c.
Proof. unfold zyz, rot_z, rot_y. munf. repeat split; ring. Qed.
Lemma rotation_col2 A : rotation A -> m02 A ^ 2 + m12 A ^ 2 + m22 A ^ 2 = 1.
Proof. intros [H _]. destruct A. munf. injection H as _ _ _ _ _ _ _ _ H. nra. Qed.
Lemma rotation_row2 A : rotation A -> m20 A ^ 2 + m21 A ^ 2 + m22 A ^ 2 = 1.
Proof. intros H. pose proof (rotation_col2 _ (rotation_tr _ H)) as E. destruct A. munf. exact E. Qed.
(** both solutions reproduce the rotation when the approach axis is not vertical *)
Lemma wrist_sound A q : rotation A -> In q (wrist_angles A) ->
  exists t1 t2 t3, q = [t1; t2; t3] /\ (sin t2 <> 0 <-> 0 < m02 A ^ 2 + m12 A ^ 2) /\ (sin t2 <> 0 -> zyz t1 t2 t3 = A).
Proof.
  intros HA H. pose proof (rotation_col2 A HA) as C2. pose proof (rotation_row2 A HA) as R2.
  unfold wrist_angles in H. cbn [col0 col1 col2 vx vy vz] in H. set (a := sqrt (m02 A ^ 2 + m12 A ^ 2)) in *.
  assert (Ha : a ^ 2 = m02 A ^ 2 + m12 A ^ 2) by apply sqrt_sum_sq.
  assert (Ha0 : 0 <= a) by apply sqrt_pos.
  assert (U1 : m22 A ^ 2 + a ^ 2 = 1) by lra. assert (U2 : m22 A ^ 2 + (- a) ^ 2 = 1) by (replace ((- a) ^ 2) with (a ^ 2) by ring; lra).
  destruct (atan2_unit _ _ U1) as [C1 S1]. destruct (atan2_unit _ _ U2) as [C1' S1'].
  destruct (polar (m02 A) (m12 A)) as [P1 P2]. destruct (polar_neg (m02 A) (m12 A)) as [N1 N2]. fold a in P1, P2, N1, N2.
  assert (EQ : forall t1 t2 t3, let B := zyz t1 t2 t3 in cos t1 * sin t2 = m02 A -> sin t1 * sin t2 = m12 A -> cos t2 = m22 A ->
     - sin t2 * cos t3 = m20 A -> sin t2 * sin t3 = m21 A -> sin t2 <> 0 -> B = A).
  { intros t1 t2 t3 B K1 K2 K3 K4 K5 K6. destruct (zyz_entries t1 t2 t3) as (Z1 & Z2 & Z3 & Z4 & Z5). fold B in Z1, Z2, Z3, Z4, Z5.
    apply rotation_determined; [apply zyz_rotation|auto| |congruence|congruence|].
    - unfold col2. apply vec3_eq; cbn [vx vy vz]; congruence.
    - rewrite Z1, Z2. pose proof (sin2_cos2 t1) as T. unfold Rsqr in T. replace ((cos t1 * sin t2) ^ 2 + (sin t1 * sin t2) ^ 2) with ((sin t1 * sin t1 + cos t1 * cos t1) * (sin t2) ^ 2) by ring.
      rewrite T. assert (0 < sin t2 ^ 2) by (pose proof (pow2_ge_0 (sin t2)); assert (sin t2 ^ 2 <> 0) by (apply pow_nonzero; auto); lra). lra. }
  assert (D : a <> 0 -> 0 < a) by (intros; lra).
  assert (QA : m20 A ^ 2 + m21 A ^ 2 = a ^ 2) by lra.
  destruct H as [<-|[<-|[]]]; eexists _, _, _; (split; [reflexivity|]).
  - rewrite S1. split; [rewrite <- Ha; split; intros; nra|]. intros H.
    destruct (atan2_scaled a (m21 A) (- m20 A) _ (D H) ltac:(nra) eq_refl) as [Q1 Q2].
    apply EQ; rewrite ?S1, ?C1; try lra.
  - rewrite S1'. split; [rewrite <- Ha; split; intros; nra|]. intros H. assert (H' : a <> 0) by lra.
    destruct (atan2_scaled a (- m21 A) (m20 A) _ (D H') ltac:(nra) eq_refl) as [Q1 Q2].
    apply EQ; rewrite ?S1', ?C1'; try lra.
Qed.
(** every set of angles of a rotation is found *)
Lemma wrist_complete t1 t2 t3 : sin t2 <> 0 -> exists r1 r2 r3, In [r1; r2; r3] (wrist_angles (zyz t1 t2 t3)) /\ cong t1 r1 /\ cong t2 r2 /\ cong t3 r3.
Proof.
  intros H. destruct (zyz_entries t1 t2 t3) as (Z1 & Z2 & Z3 & Z4 & Z5). set (A := zyz t1 t2 t3) in *.
  unfold wrist_angles. cbn [col0 col1 col2 vx vy vz]. set (a := sqrt (m02 A ^ 2 + m12 A ^ 2)).
  assert (Ha : a ^ 2 = sin t2 ^ 2).
  { unfold a. rewrite sqrt_sum_sq, Z1, Z2. pose proof (sin2_cos2 t1) as T. unfold Rsqr in T.
    transitivity ((sin t1 * sin t1 + cos t1 * cos t1) * sin t2 ^ 2); [ring|]. rewrite T. ring. }
  assert (Ha0 : 0 <= a) by apply sqrt_pos.
  assert (K : (sin t2 - a) * (sin t2 + a) = 0) by nra. apply Rmult_integral in K. destruct K as [K|K].
  - assert (E : a = sin t2) by lra. assert (P : 0 < sin t2) by lra. eexists _, _, _. split; [left; reflexivity|]. rewrite E, Z1, Z2, Z3, Z4, Z5.
    split; [apply (atan2_cong (sin t2)); auto; ring|]. split; [apply (atan2_cong 1); lra|apply (atan2_cong (sin t2)); auto; ring].
  - assert (E : - a = sin t2) by lra. assert (P : 0 < a) by lra. eexists _, _, _. split; [right; left; reflexivity|]. rewrite E, Z1, Z2, Z3, Z4, Z5.
    split; [apply (atan2_cong a); auto; nra|]. split; [apply (atan2_cong 1); lra|apply (atan2_cong a); auto; nra].
Qed.
Lemma wrist_angles_two A : exists t1 t2 t3 u1 u2 u3, wrist_angles A = [[t1; t2; t3]; [u1; u2; u3]].
Proof. unfold wrist_angles. repeat eexists. Qed.
Lemma wrist_bounds A q x : In q (wrist_angles A) -> In x q -> - PI < x <= PI.
Proof. intros H K. unfold wrist_angles in H. destruct H as [<-|[<-|[]]]; destruct K as [<-|[<-|[<-|[]]]]; apply atan2_bound. Qed.

(** ** Base and tool *)
Definition mount (r : robot) (X : mat4) : mat4 := tooled r (tmul (r_tfb r) X).
Definition unmount (r : robot) (T : mat4) : mat4 :=
  let Tw := tmul (tf_inverse (r_tfb r)) T in match r_tool r with Some (_, tip) => tmul Tw (tf_inverse tip) | None => Tw end.
Lemma mount_unmount r T : rigid (r_tfb r) -> rigid_tool r -> mount r (unmount r T) = T.
Proof.
  intros B C. unfold mount, unmount, tooled, rigid_tool in *. destruct (r_tool r) as [[g tip]|].
  - rewrite <- (tmul_assoc (r_tfb r)), <- (tmul_assoc (r_tfb r)), tf_inverse_r, tmul_1_l, tmul_assoc, tf_inverse_l, tmul_1_r by auto. reflexivity.
  - rewrite <- tmul_assoc, tf_inverse_r, tmul_1_l by auto. reflexivity.
Qed.
Lemma unmount_mount r X : rigid (r_tfb r) -> rigid_tool r -> unmount r (mount r X) = X.
Proof.
  intros B C. unfold mount, unmount, tooled, rigid_tool in *. destruct (r_tool r) as [[g tip]|].
  - rewrite <- (tmul_assoc (tf_inverse (r_tfb r))), <- (tmul_assoc (tf_inverse (r_tfb r))), tf_inverse_l, tmul_1_l, tmul_assoc, tf_inverse_r, tmul_1_r by auto. reflexivity.
  - rewrite <- tmul_assoc, tf_inverse_l, tmul_1_l by auto. reflexivity.
Qed.
Lemma unmount_rigid r T : rigid (r_tfb r) -> rigid_tool r -> rigid T -> rigid (unmount r T).
Proof.
  intros B C H. unfold unmount, rigid_tool in *. destruct (r_tool r) as [[g tip]|]; repeat apply rigid_tmul; auto using tf_inverse_rigid.
Qed.
Lemma tool_dist X Y tip : rigid X -> rigid Y -> rigid tip -> rot X = rot Y ->
  rot (tmul X tip) = rot (tmul Y tip) /\ dist2 (pos (tmul X tip)) (pos (tmul Y tip)) = dist2 (pos X) (pos Y).
Proof.
  intros [_ X1 X2] [_ Y1 Y2] [_ C1 C2] E. rewrite !tmul_blocks by auto. cbn [rot pos]. split; [congruence|].
  rewrite E. unfold dist2. f_equal. generalize (mapply (rot Y) (pos tip)) (pos X) (pos Y). intros. vring.
Qed.
(** two poses with the same rotation keep their distance *)
Lemma mount_dist r X Y : rigid (r_tfb r) -> rigid_tool r -> rigid X -> rigid Y -> rot X = rot Y ->
  rot (mount r X) = rot (mount r Y) /\ dist2 (pos (mount r X)) (pos (mount r Y)) = dist2 (pos X) (pos Y).
Proof.
  intros B C HX HY E. assert (K : rot (tmul (r_tfb r) X) = rot (tmul (r_tfb r) Y) /\ dist2 (pos (tmul (r_tfb r) X)) (pos (tmul (r_tfb r) Y)) = dist2 (pos X) (pos Y)).
  { pose proof (rigid_rot _ B) as RB. destruct B as [_ B1 B2], HX as [_ X1 X2], HY as [_ Y1 Y2]. rewrite !tmul_blocks by auto. cbn [rot pos]. split; [congruence|].
    unfold dist2. replace (vsub (vadd (mapply (rot (r_tfb r)) (pos X)) (pos (r_tfb r))) (vadd (mapply (rot (r_tfb r)) (pos Y)) (pos (r_tfb r)))) with (mapply (rot (r_tfb r)) (vsub (pos X) (pos Y))) by (generalize (rot (r_tfb r)) (pos (r_tfb r)) (pos X) (pos Y); intros; vring).
    apply rotation_norm; auto. }
  unfold mount, tooled, rigid_tool in *. destruct (r_tool r) as [[g tip]|]; auto. destruct K as [K1 K2].
  assert (RX : rigid (tmul (r_tfb r) X)) by (apply rigid_tmul; auto). assert (RY : rigid (tmul (r_tfb r) Y)) by (apply rigid_tmul; auto).
  rewrite <- K2. apply tool_dist; auto.
Qed.

(** ** Kuka *)
Lemma reset_like r r' r0 : good r' -> reset r' = reset r -> like r r0 -> like r' r0 /\ r_tfb r' = r_tfb r /\ r_tool r' = r_tool r.
Proof.
  intros G E [_ H]. assert (E1 : map reset_link (r_links r') = map reset_link (r_links r)) by (apply (f_equal r_links) in E; exact E).
  split; [split; auto|].
  - rewrite <- H. assert (D : forall ls, map dhjt ls = map dhjt (map reset_link ls)) by (intros ls; rewrite map_map; reflexivity). rewrite D, E1, <- D. reflexivity.
  - split; [apply (f_equal r_tfb) in E|apply (f_equal r_tool) in E]; exact E.
Qed.
Lemma Kuka_good a1 a2 d4 d6 : good (Kuka a1 a2 d4 d6). Proof. apply robot_init_good. repeat constructor. Qed.
Lemma Arm2_good a1 a2 a3 : good (Arm2 a1 a2 a3). Proof. apply robot_init_good. repeat constructor. Qed.
Lemma Anthro_good a2 a3 : good (AnthropomorphicArm a2 a3). Proof. apply robot_init_good. repeat constructor. Qed.
Lemma Wrist_good d3 : good (SphericalWrist d3). Proof. apply robot_init_good. repeat constructor. Qed.
Lemma Rail_good a1 a2 d4 d6 : good (KukaOnRail a1 a2 d4 d6). Proof. apply robot_init_good. repeat constructor. Qed.

(** a Kuka between calls: its tables and those of its helper arm; base, tool, caches and the wrist are arbitrary *)
Record kuka_ok (a1 a2 d4 d6 : R) (k : kuka) : Prop := {
  ko_rob : like (k_rob k) (Kuka a1 a2 d4 d6);
  ko_arm : like (k_arm k) (Arm2 a1 a2 d4);
  ko_base : r_tfb (k_arm k) = eye4;
  ko_tool : r_tool (k_arm k) = None }.
Lemma new_kuka_ok a1 a2 d4 d6 : kuka_ok a1 a2 d4 d6 (new_kuka a1 a2 d4 d6).
Proof. split; auto using like_refl, Kuka_good, Arm2_good. Qed.

Section K.
Context (a1 a2 d4 d6 : R) (Hne : a2 * d4 <> 0).
Definition arm_wrist (Tw : mat4) (q : list R) : list (list R) :=
  match q with
  | [q1; q2; q3] => map (app [q1; q2; q3 + PI / 2]) (wrist_angles (mmul (mtr (arm2_rot q1 (q2 + (q3 + PI / 2)))) (rot Tw)))
  | _ => []
  end.
Definition three (q : list R) : Prop := length q = 3%nat.
Lemma kuka_loop_spec Tw : forall qs arm w, like arm (Arm2 a1 a2 d4) -> r_tfb arm = eye4 -> r_tool arm = None -> Forall three qs ->
  let '(arm', w', sols) := kuka_loop Tw arm w qs in
  like arm' (Arm2 a1 a2 d4) /\ r_tfb arm' = eye4 /\ r_tool arm' = None /\ sols = Ok (flat_map (arm_wrist Tw) qs).
Proof.
  induction qs as [|q qs IH]; intros arm w L B N H; cbn [kuka_loop flat_map]; [auto|]. inversion H as [|? ? Hq Hqs]; subst.
  destruct q as [|q1 [|q2 [|q3 [|]]]]; try discriminate Hq. cbn [nth_error upd].
  pose proof (fk_like arm (Arm2 a1 a2 d4) [q1; q2; q3 + PI / 2] L (Arm2_good _ _ _) eq_refl eq_refl) as F.
  rewrite arm2_fk in F. cbn [bind] in F. unfold tooled in F. rewrite B, N, tmul_1_l in F.
  destruct (fk_fst arm [q1; q2; q3 + PI / 2] (proj1 L)) as [G1 R1]. destruct (fk arm [q1; q2; q3 + PI / 2]) as [arm1 F1]. cbn [fst snd] in *. subst F1.
  destruct (reset_like _ _ _ G1 R1 L) as (L1 & B1 & N1). cbn [wrist_ik read w_qsol w_rob set_tfb r_tfb rot arm2_form].
  specialize (IH arm1 (Wr (set_tfb (w_rob w) (M4 (arm2_rot q1 (q2 + (q3 + PI / 2))) v0 (brow Tw) 1)) (wrist_angles (mmul (mtr (arm2_rot q1 (q2 + (q3 + PI / 2)))) (rot Tw)))) L1).
  rewrite B1, N1 in IH. specialize (IH B N Hqs). unfold set_tfb in *. destruct (kuka_loop _ _ _ qs) as [[arm2 w2] rest]. destruct IH as (A1 & A2 & A3 & ->).
  split; auto.
Qed.
Lemma arm_sols_three b1 b2 b3 p : Forall three (arm_sols b1 b2 b3 p).
Proof. unfold arm_sols, branch. apply Forall_app. split; destruct (elbow _); repeat constructor. Qed.

(** wrist centre of a pose of the last link *)
Definition centre (X : mat4) : vec3 := vsub (pos X) (vscale d6 (col2 (rot X))).
Definition kuka_sols (X : mat4) : list (list R) := flat_map (arm_wrist X) (arm_sols a1 a2 d4 (centre X)).
Lemma kuka_target_spec r T : like r (Kuka a1 a2 d4 d6) -> kuka_target r T =
  Ok (M4 (rot (unmount r T)) (centre (unmount r T)) (brow (unmount r T)) (bww (unmount r T))).
Proof.
  intros [_ H]. unfold kuka_target. assert (E : nth_error (map dhjt (r_links r)) 5 = nth_error (map dhjt (r_links (Kuka a1 a2 d4 d6))) 5) by (rewrite H; auto).
  rewrite nth_error_map in E. unfold py_index. destruct (nth_error (r_links r) 5) as [l|]; [|discriminate E]. cbn in E. injection E as E _. cbn [bind]. rewrite E. cbn [dd].
  unfold unmount. set (X := match r_tool r with Some _ => _ | None => _ end). unfold centre. f_equal. f_equal. f_equal. generalize (rot X). intros. vring.
Qed.
Lemma flat_map_arm_wrist_rot Tw Tw' qs : rot Tw = rot Tw' -> flat_map (arm_wrist Tw) qs = flat_map (arm_wrist Tw') qs.
Proof. intros E. induction qs as [|q qs IH]; cbn [flat_map]; auto. rewrite IH. unfold arm_wrist. rewrite E. reflexivity. Qed.
(** the result of a call does not depend on earlier calls, and the robot stays usable *)
Lemma kuka_ik_spec k T : kuka_ok a1 a2 d4 d6 k ->
  kuka_ok a1 a2 d4 d6 (fst (kuka_ik k T)) /\ k_rob (fst (kuka_ik k T)) = k_rob k /\
  snd (kuka_ik k T) = Ok (match kuka_sols (unmount (k_rob k) T) with [] => IkFail | s => IkOk (Own s) end).
Proof.
  intros [K1 K2 K3 K4]. unfold kuka_ik. rewrite (kuka_target_spec _ _ K1). set (X := unmount (k_rob k) T).
  rewrite (arm2_ik_result a1 a2 d4) by auto. cbn [pos]. unfold kuka_sols, arm_result.
  set (Tw := M4 (rot X) (centre X) (brow X) (bww X)). rewrite (flat_map_arm_wrist_rot X Tw) by reflexivity.
  destruct (arm_sols a1 a2 d4 (centre X)) as [|q qs] eqn:E; [cbn [fst snd flat_map]; split; [split; auto|split; reflexivity]|].
  assert (H3 : Forall three (q :: qs)) by (rewrite <- E; apply arm_sols_three).
  pose proof (kuka_loop_spec Tw (q :: qs) (k_arm k) (k_wrist k) K2 K3 K4 H3) as S. destruct (kuka_loop Tw (k_arm k) (k_wrist k) (q :: qs)) as [[arm w] sols].
  destruct S as (S1 & S2 & S3 & ->). cbn [fst snd bind k_rob k_arm]. split; [split; auto|]. split; [reflexivity|]. destruct (flat_map (arm_wrist Tw) (q :: qs)); reflexivity.
Qed.
Lemma kuka_sols_nil X : kuka_sols X = [] <-> arm_sols a1 a2 d4 (centre X) = [].
Proof.
  unfold kuka_sols. pose proof (arm_sols_three a1 a2 d4 (centre X)) as H. destruct (arm_sols a1 a2 d4 (centre X)) as [|q qs]; [tauto|]. split; [|discriminate].
  inversion H as [|? ? Hq _]; subst. destruct q as [|q1 [|q2 [|q3 [|]]]]; try discriminate Hq. cbn [flat_map arm_wrist].
  destruct (wrist_angles_two (mmul (mtr (arm2_rot q1 (q2 + (q3 + PI / 2)))) (rot X))) as (t1 & t2 & t3 & u1 & u2 & u3 & ->). discriminate.
Qed.

Lemma arm2_rot_rotation q1 q : rotation (arm2_rot q1 q).
Proof.
  pose proof (fk_rigid (Arm2 1 1 1) [q1; q; 0] _ (Arm2_good 1 1 1) rigid_eye I (arm2_fk 1 1 1 q1 q 0)) as [H _ _]. cbn [arm2_form rot] in H. rewrite Rplus_0_r in H. exact H.
Qed.
Lemma kuka_centre_arm q1 q2 q3 : kuka_centre a1 a2 d4 q1 q2 (q3 + PI / 2) = arm_pos a1 a2 d4 q1 q2 q3.
Proof.
  unfold kuka_centre, arm_pos, reach_r, reach_z. replace (q2 + (q3 + PI / 2)) with ((q2 + q3) + PI / 2) by ring.
  assert (S : sin (q2 + q3 + PI / 2) = cos (q2 + q3)) by (rewrite sin_plus, cos_PI2, sin_PI2; ring).
  assert (C : cos (q2 + q3 + PI / 2) = - sin (q2 + q3)) by (rewrite cos_plus, cos_PI2, sin_PI2; ring).
  rewrite S, C. apply vec3_eq; cbn; ring.
Qed.
Lemma kuka_form_centre q1 q2 q3 q4 q5 q6 : let X := kuka_form a1 a2 d4 d6 q1 q2 q3 q4 q5 q6 in
  centre X = kuka_centre a1 a2 d4 q1 q2 q3 /\ rot X = mmul (arm2_rot q1 (q2 + q3)) (zyz q4 q5 q6) /\ rigid X.
Proof.
  unfold kuka_form, centre. cbn [pos rot]. set (A := mmul _ _). split; [generalize (kuka_centre a1 a2 d4 q1 q2 q3); intros; generalize (vscale d6 (col2 A)); intros; vring|].
  split; auto. split; cbn; auto. apply rotation_mmul; [apply arm2_rot_rotation|apply zyz_rotation].
Qed.
(** every solution, before base and tool are put back *)
Lemma kuka_sols_sound X q : rigid X -> In q (kuka_sols X) ->
  exists q1 q2 q3 q4 q5 q6, q = [q1; q2; q3; q4; q5; q6] /\
    let F := kuka_form a1 a2 d4 d6 q1 q2 q3 q4 q5 q6 in
    (sin q5 <> 0 -> rot F = rot X /\ dist2 (pos F) (pos X) <= 2 * Rabs (a2 * d4) * tol) /\
    (sin q5 <> 0 -> cos q3 <> 0 -> F = X) /\
    (cos q3 <> 0 -> kuka_centre a1 a2 d4 q1 q2 q3 = centre X).
Proof.
  intros RX H. apply in_flat_map in H. destruct H as (qa & Ha & H). apply (arm_sound a1 a2 d4 Hne) in Ha. destruct Ha as (q1 & q2 & q3 & -> & X1 & X2 & _).
  cbn [arm_wrist] in H. apply in_map_iff in H. destruct H as (qw & <- & H). set (A := arm2_rot q1 (q2 + (q3 + PI / 2))) in *.
  assert (RA : rotation A) by apply arm2_rot_rotation.
  apply wrist_sound in H; [|apply rotation_mmul; [apply rotation_tr; auto|apply RX]]. destruct H as (q4 & q5 & q6 & -> & _ & W).
  exists q1, q2, (q3 + PI / 2), q4, q5, q6. split; [reflexivity|]. cbv zeta. set (F := kuka_form _ _ _ _ _ _ _ _ _ _).
  destruct (kuka_form_centre q1 q2 (q3 + PI / 2) q4 q5 q6) as (C1 & C2 & RF). fold F in C1, C2, RF. fold A in C2.
  assert (E : sin q5 <> 0 -> rot F = rot X). { intros H5. rewrite C2, (W H5), <- mmul_assoc, rotation_inv_r, mmul_1_l by auto. reflexivity. }
  rewrite kuka_centre_arm in *.
  assert (PF : forall Y, pos Y = vadd (centre Y) (vscale d6 (col2 (rot Y)))) by (intros Y; unfold centre; generalize (vscale d6 (col2 (rot Y))) (pos Y); intros; vring).
  assert (CQ : cos (q3 + PI / 2) = - sin q3) by (rewrite cos_plus, cos_PI2, sin_PI2; ring). rewrite CQ.
  split; [|split].
  - intros H5. split; auto. rewrite (PF F), (PF X), C1, (E H5). unfold dist2 in *.
    replace (vsub (vadd (arm_pos a1 a2 d4 q1 q2 q3) (vscale d6 (col2 (rot X)))) (vadd (centre X) (vscale d6 (col2 (rot X))))) with (vsub (arm_pos a1 a2 d4 q1 q2 q3) (centre X)); auto.
    generalize (arm_pos a1 a2 d4 q1 q2 q3) (vscale d6 (col2 (rot X))) (centre X). intros. vring.
  - intros H5 H3. destruct RF as [_ F1 F2], RX as [_ Y1 Y2]. apply mat4_eq; try congruence; auto. rewrite (PF F), (PF X), C1, (E H5), X1 by lra. reflexivity.
  - intros H3. apply X1. lra.
Qed.
(** every joint vector of a pose is found *)
Lemma kuka_sols_complete q1 q2 q3 q4 q5 q6 : let X := kuka_form a1 a2 d4 d6 q1 q2 q3 q4 q5 q6 in
  0 < lxy (kuka_centre a1 a2 d4 q1 q2 q3) -> Rabs (sin q3) <= 1 - tol -> sin q5 <> 0 ->
  exists s, In s (kuka_sols X) /\ Forall2 cong [q1; q2; q3; q4; q5; q6] s.
Proof.
  intros X HL H3 H5. destruct (kuka_form_centre q1 q2 q3 q4 q5 q6) as (C1 & C2 & RX). fold X in C1, C2, RX.
  set (u3 := q3 - PI / 2). assert (E3 : q3 = u3 + PI / 2) by (unfold u3; ring). rewrite E3, kuka_centre_arm in C1, HL.
  assert (HC : cos u3 = sin q3) by (unfold u3; rewrite cos_minus, cos_PI2, sin_PI2; ring).
  destruct (arm_complete a1 a2 d4 Hne q1 q2 u3 HL) as (r1 & r2 & r3 & I1 & G1 & G2 & G3); [rewrite HC; auto|].
  assert (EA : arm2_rot r1 (r2 + (r3 + PI / 2)) = arm2_rot q1 (q2 + q3)).
  { destruct (cong_cos_sin _ _ G1) as [c1 s1], (cong_cos_sin _ _ G2) as [c2 s2], (cong_cos_sin _ _ G3) as [c3 s3].
    assert (K : cong (q2 + q3) (r2 + (r3 + PI / 2))). { destruct G2 as [n2 G2], G3 as [n3 G3]. exists (n2 + n3)%Z. rewrite E3, plus_IZR. lra. }
    destruct (cong_cos_sin _ _ K) as [ck sk]. unfold arm2_rot. rewrite c1, s1, ck, sk. reflexivity. }
  destruct (wrist_complete q4 q5 q6 H5) as (r4 & r5 & r6 & I2 & G4 & G5 & G6).
  exists [r1; r2; r3 + PI / 2; r4; r5; r6]. split.
  - unfold kuka_sols. rewrite C1. apply in_flat_map. exists [r1; r2; r3]. split; auto. cbn [arm_wrist]. apply in_map_iff. exists [r4; r5; r6]. split; auto.
    rewrite EA, C2, <- mmul_assoc, (rot_orth _ (arm2_rot_rotation q1 (q2 + q3))), mmul_1_l. exact I2.
  - assert (G3' : cong q3 (r3 + PI / 2)). { destruct G3 as [n3 G3]. exists n3. lra. } repeat constructor; auto.
Qed.
Lemma kuka_sols_reachable q1 q2 q3 q4 q5 q6 : kuka_sols (kuka_form a1 a2 d4 d6 q1 q2 q3 q4 q5 q6) <> [].
Proof.
  rewrite kuka_sols_nil. destruct (kuka_form_centre q1 q2 q3 q4 q5 q6) as (C1 & _). rewrite C1. replace q3 with ((q3 - PI / 2) + PI / 2) by ring. rewrite kuka_centre_arm. apply arm_reachable; auto.
Qed.
Lemma kuka_sols_bounds X q : In q (kuka_sols X) -> exists q1 q2 q3 q4 q5 q6, q = [q1; q2; q3; q4; q5; q6] /\
  - PI < q1 <= PI /\ - PI < q2 <= PI /\ - PI / 2 < q3 <= 3 * PI / 2 /\ - PI < q4 <= PI /\ - PI < q5 <= PI /\ - PI < q6 <= PI.
Proof.
  intros H. apply in_flat_map in H. destruct H as (qa & Ha & H).
  assert (K : exists q1 q2 q3, qa = [q1; q2; q3] /\ - PI < q1 <= PI /\ - PI < q2 <= PI /\ - PI < q3 <= PI).
  { unfold arm_sols, branch in Ha. apply in_app_or in Ha. destruct Ha as [Ha|Ha]; (destruct (elbow _); [|destruct Ha]); destruct Ha as [<-|[<-|[]]]; eexists _, _, _; (split; [reflexivity|]); (split; [apply atan2_bound|]); (split; apply atan2_bound). }
  destruct K as (q1 & q2 & q3 & -> & B1 & B2 & B3). cbn [arm_wrist] in H. apply in_map_iff in H. destruct H as (qw & <- & H).
  assert (L : exists q4 q5 q6, qw = [q4; q5; q6]) by (unfold wrist_angles in H; destruct H as [<-|[<-|[]]]; eauto). destruct L as (q4 & q5 & q6 & ->).
  exists q1, q2, (q3 + PI / 2), q4, q5, q6. split; [reflexivity|]. assert (B : forall x, In x [q4; q5; q6] -> - PI < x <= PI) by (intros x; apply (wrist_bounds _ _ _ H)).
  split; [exact B1|]. split; [exact B2|]. split; [lra|]. split; [|split]; apply B; cbn; auto.
Qed.
End K.

(** ** Through fk *)
Lemma kuka_fk_mount a1 a2 d4 d6 r q1 q2 q3 q4 q5 q6 : like r (Kuka a1 a2 d4 d6) ->
  snd (fk r [q1; q2; q3; q4; q5; q6]) = Ok (mount r (kuka_form a1 a2 d4 d6 q1 q2 q3 q4 q5 q6)).
Proof. intros K. rewrite (fk_like r (Kuka a1 a2 d4 d6)); auto using Kuka_good. rewrite kuka_fk. reflexivity. Qed.
