(** * A planning task in floating point: cases for C153. *)
From Coq Require Import String Reals Lra Lia Psatz List Bool Arith ZArith Permutation.
From Flocq Require Import Core.
From Verif Require Import PyBase Cost SpecPath GraphCommon CppGraph CppGraphProofs CppExamples Mat Util UtilProofs Geometry GeometryProofs Robot RobotProofs RobotForms Ik IkProofs KukaProofs PumaProofs Path PathProofs Planning PlanningProofs Resources ResourcesProofs TaskProofs Pipeline PipelineProofs PipelineExamples Motion MotionKuka.
From Verif Require Import FloatFk FloatFkProofs FloatColl FloatCollProofs FloatIk FloatIkProofs FloatIkArm FloatIkWrist FloatIkKuka FloatIkDouble FloatPlan FloatPlanProofs.
Import ListNotations.
Local Open Scope R_scope.

(** a Kuka with every number rounded to a double *)
Definition round_object (k : kuka) : kuka := Kk (round_boxes (round_robot (k_rob k))) (round_robot (k_arm k)) (k_wrist k).
Lemma round_object_same k : good (k_rob k) -> small_angles (k_rob k) -> small_angles (k_arm k) -> same_kuka k (round_object k).
Proof.
  intros G A1 A2. destruct (round_all_near (k_rob k) A1) as (N1 & N2 & N3). split; [split; [exact N1|apply round_robot_near; exact A2]|]. split; [exact N2|exact (N3 G)].
Qed.
Lemma object_angles : small_angles (k_rob kuka_object) /\ small_angles (k_arm kuka_object).
Proof.
  pose proof PI_RGT_0. pose proof PI_4. unfold small_angles, kuka_object. cbn [k_rob k_arm]. split; geoms; cbn [k_arm Arm2 robot_init r_links]; repeat (apply Forall_cons; [split; apply Rabs_le; cbn [lr new_link l_dh dalpha dtheta]; lra|]); apply Forall_nil.
Qed.
Lemma object_std : kuka_std kuka_object.
Proof. destruct new_kuka_std as [[_ KB KL _] _]. split; [apply kuka_object_ok|exact KB|exact KL|exact I]. Qed.
Lemma object_size : robot_size 10 10 (k_rob kuka_object).
Proof.
  split; [|split; intros; discriminate]. unfold kuka_object. cbn [k_rob]. geoms.
  assert (K : forall s x y z, dx s + dy s + dz s <= 20 -> Rabs x <= 1 -> Rabs y <= 1 -> Rabs z <= 1 -> coll_size 10 10 (coll1 s (pose_x 0 x y z))).
  { intros s x y z Hs Hx Hy Hz. split; cbn [coll1 c_s c_tf]; apply Forall_cons; try apply Forall_nil; [lra|]. unfold pose_x. cbn [pos]. eapply Rle_trans; [apply (len3 _ 1); auto|lra]. }
  repeat (apply Forall_cons; [cbn [l_geom]; apply K; cbn [dx dy dz]; [lra|apply Rabs_le; lra|apply Rabs_le; lra|apply Rabs_le; lra]|]). apply Forall_nil.
Qed.
(** beside the robot, the approach axis level, free to turn about it by one radian *)
Definition side_pt : eulerpt := EulerPt [Fix 0.78; Fix (-0.115); Fix (-0.62)] [Fix (PI / 2); Fix 0; Tol (TN (PI / 2) (PI / 2 + 1) (PI / 2 + 1 / 2) 3)]
  [0.78; -0.115; -0.62; PI / 2; 0; PI / 2 + 1 / 2].
Definition side_new : new_eulerpt [Fix 0.78; Fix (-0.115); Fix (-0.62)] [Fix (PI / 2); Fix 0; Tol (TN (PI / 2) (PI / 2 + 1) (PI / 2 + 1 / 2) 3)] = Ok side_pt := eq_refl.
Lemma side_fine k : r_tfb (k_rob k) = eye4 -> pt_fine k side_pt.
Proof.
  intros B. pose proof PI_RGT_0. pose proof PI_4. assert (Q : forall x, Rabs x <= 5 -> num_small (Fix x)) by auto. split; [|split].
  - split; [cbn; lia|]. split; [cbn; lia|]. cbn [side_pt e_pos e_rpy firstn].
    split; repeat (apply Forall_cons; [try (apply Q, Rabs_le; lra)|]); try apply Forall_nil. cbn [num_small t_lower t_upper t_samples]. repeat split; try lia; apply Rabs_le; lra.
  - split; [exists [Fix 0.78; Fix (-0.115); Fix (-0.62)], [Fix (PI / 2); Fix 0; Tol (TN (PI / 2) (PI / 2 + 1) (PI / 2 + 1 / 2) 3)]; reflexivity|]. cbn [side_pt e_pos e_rpy firstn app].
    repeat (apply Forall_cons; [try exact I|]); try apply Forall_nil. cbn. split; [lra|lia].
  - intros T [_ (x & y & z & a & b & c & F & ->)]. cbn [side_pt e_pos e_rpy firstn app] in F. apply Forall2_6 in F. destruct F as (x' & y' & z' & a' & b' & c' & E & X & Y & Z & _). injection E as <- <- <- _ _ _. cbn [within] in X, Y, Z. subst x y z.
    rewrite B. unfold frame6, eye4. cbn [pos]. replace (vsub (V3 0.78 (-0.115) (-0.62)) v0) with (V3 0.78 (-0.115) (-0.62)) by (apply vec3_eq; cbn; ring).
    eapply Rle_trans; [apply (len3 _ 1); cbn [vx vy vz]; apply Rabs_le; lra|lra].
Qed.
Lemma side_pose : kuka_form 0.18 0.6 0.62 0.115 0 0 0 (PI / 2) (PI / 2) 0 = frame6 0.78 (-0.115) (-0.62) (PI / 2) 0 (PI / 2).
Proof.
  destruct (kuka_form_centre 0.18 0.6 0.62 0.115 0 0 0 (PI / 2) (PI / 2) 0) as (CF & RF & BF). cbv zeta in CF, RF, BF. set (X := kuka_form 0.18 0.6 0.62 0.115 0 0 0 (PI / 2) (PI / 2) 0) in *.
  assert (ER : rot X = rot_xyz (PI / 2) 0 (PI / 2)).
  { rewrite RF, zyz_form. unfold rot_xyz, rot_x, rot_y, rot_z, arm2_rot, mmul. cbn [m00 m01 m02 m10 m11 m12 m20 m21 m22]. rewrite Rplus_0_r, cos_0, sin_0, cos_PI2, sin_PI2. f_equal; ring. }
  assert (EP : pos X = V3 0.78 (-0.115) (-0.62)).
  { assert (E : pos X = vadd (centre 0.115 X) (vscale 0.115 (col2 (rot X)))) by (unfold centre; generalize (pos X) (col2 (rot X)); intros [] []; apply vec3_eq; cbn; ring).
    rewrite E, CF. unfold kuka_centre. rewrite ER. unfold rot_xyz, rot_x, rot_y, rot_z, mmul, col2. cbn [m00 m01 m02 m10 m11 m12 m20 m21 m22]. rewrite Rplus_0_r, cos_0, sin_0, cos_PI2, sin_PI2. apply vec3_eq; cbn; lra. }
  clearbody X. destruct BF as [_ B1 B2]. destruct X as [r p b w]. cbn in ER, EP, B1, B2. subst. reflexivity.
Qed.
Lemma side_sample : exists Ts, euler_samples side_pt = Ok Ts /\ In (frame6 0.78 (-0.115) (-0.62) (PI / 2) 0 (PI / 2)) Ts.
Proof.
  destruct (euler_spec _ _ _ _ _ _ _ _ _ side_new) as (l & E & _ & G); [repeat constructor; cbn; lia|]. exists l. split; auto. apply G. exists 0.78, (-0.115), (-0.62), (PI / 2), 0, (PI / 2). split; auto.
  repeat (apply Forall2_cons; [try reflexivity|]); try apply Forall2_nil. left. cbn. split; [reflexivity|lia].
Qed.
(** the robot without boxes: every pose that is reached is easy, whatever the scene *)
Lemma bare_easy scene tol : pt_easy (new_kuka 0.18 0.6 0.62 0.115) tol scene side_pt.
Proof.
  destruct side_sample as (Ts & E & I1). exists Ts, (frame6 0.78 (-0.115) (-0.62) (PI / 2) 0 (PI / 2)). split; auto. split; auto. split.
  - exists 0, 0, 0, (PI / 2), (PI / 2), 0. rewrite (kuka_fk_mount 0.18 0.6 0.62 0.115); [|apply (ko_rob _ _ _ _ _ (new_kuka_ok 0.18 0.6 0.62 0.115))]. rewrite side_pose. f_equal. unfold mount, tooled. cbn [new_kuka k_rob Kuka robot_init r_tfb r_tool]. apply tmul_1_l.
  - intros q _. assert (N : forall i l o x, nth_error (r_links (k_rob (new_kuka 0.18 0.6 0.62 0.115))) i = Some l -> ~ in_coll (l_geom l) o x).
    { intros i l o x Hl (s & T & (j & J & _) & _). apply nth_error_In in Hl. cbn [new_kuka k_rob Kuka robot_init r_links In] in Hl. repeat (destruct Hl as [<-|Hl]; [destruct j; discriminate J|]). destruct Hl. }
    split.
    + intros x y [(b & B & _)|[H|(tl & tip & B & _)]]; try discriminate B. exfalso. unfold in_links in H. destruct H as (i & l & Hl & H). exact (N _ _ _ _ Hl H).
    + intros _. split; [|intros ? ? ? ? B; discriminate B]. intros i j li lj Hi Hj _ x y Hx. exfalso. exact (N _ _ _ _ Hi Hx).
Qed.
(** a plan, in a scene with a box *)
Lemma bare_plan : let k := new_kuka 0.18 0.6 0.62 0.115 in let scene := Coll [Shape 1 1 1] [M4 mid (V3 5 0 0) v0 1] in
  forall pq, exists rows c, snd (fkuka_plan double_ik box_test f32 (K := RCost) rsq pq (round_coll scene) [side_pt; side_pt] "bfs" None (round_object k)) = Ok (GspOk rows c).
Proof.
  intros k scene pq. destruct new_kuka_std as (KS & A1 & A2). pose proof (new_kuka_ok 0.18 0.6 0.62 0.115) as KO. pose proof (ko_rob _ _ _ _ _ KO) as Lk.
  assert (NB : Forall (fun l => c_s (l_geom l) = [] /\ c_tf (l_geom l) = []) (r_links (k_rob k))) by (cbn; repeat (apply Forall_cons; [split; reflexivity|]); apply Forall_nil).
  destruct (plan_found k KS) with (prim := box_test) (tol := 0) (scene := scene) (scene' := round_coll scene) (path := [side_pt; side_pt]) (ow := @None (list R)) (k' := round_object k) (pq := pq) as (data & rows & _ & E & _).
  - split; [apply rigid_eye|]. split; [|split; intros; discriminate]. eapply Forall_impl; [|exact NB]. intros l [_ E]. unfold rigid_coll. rewrite E. apply Forall_nil.
  - split; [|split; intros; discriminate]. eapply Forall_impl; [|exact NB]. intros l [E1 E2]. split; rewrite ?E1, ?E2; apply Forall_nil.
  - exact box_test_within.
  - lra.
  - apply Forall_cons; [|apply Forall_nil]. constructor; cbn; auto using rotation_mid.
  - apply round_coll_near.
  - split; cbn [scene c_s c_tf]; (apply Forall_cons; [|apply Forall_nil]); [cbn; lra|]. cbn [pos]. rewrite len_x, Rabs_right; lra.
  - repeat (apply Forall_cons; [apply side_fine; reflexivity|]). apply Forall_nil.
  - repeat (apply Forall_cons; [apply bare_easy|]). apply Forall_nil.
  - discriminate.
  - apply round_object_same; auto. apply Lk.
  - exists rows. eexists. exact E.
Qed.
