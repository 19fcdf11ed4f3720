(** * The stretched Kuka: a pose at the wrist singularity. *)
From Coq Require Import String List Arith Bool Lia Reals Lra ZArith Permutation.
From Verif Require Import PyBase Cost SpecPath GraphCommon CppGraph CppGraphProofs CppSearch CppHeap CppMain CppExamples Mat Util UtilProofs HaltonProofs Geometry GeometryProofs Robot RobotProofs RobotForms Ik IkProofs KukaProofs RailProofs Path PathProofs Planning PlanningProofs PlanningCart Resources ResourcesProofs TaskProofs Pipeline PipelineProofs.
Import ListNotations.
Local Open Scope R_scope.

(** the bundled Kuka with its geometry *)
Definition kuka_object : kuka := Kk (KukaG 0.18 0.6 0.62 0.115) (Arm2 0.18 0.6 0.62) (new_wrist 0.115).
Lemma kukaG_good : good (KukaG 0.18 0.6 0.62 0.115).
Proof. split; [geoms; repeat constructor|]. apply Permutation_refl. Qed.
Lemma kuka_object_ok : kuka_ok 0.18 0.6 0.62 0.115 kuka_object.
Proof. split; auto using like_refl, Arm2_good. split; [apply kukaG_good|reflexivity]. Qed.
Lemma kuka_object_solid : solid (k_rob kuka_object).
Proof. split; [apply rigid_eye|]. split; [apply kuka_rigid|]. split; intros; discriminate. Qed.

(** ** The frames of the stretched arm *)
Definition stretched : list R := [0; 0; PI / 2; 0; 0; 0].
Definition rF0 : mat3 := M3 1 0 0 0 0 (-1) 0 1 0.
Definition rF2 : mat3 := M3 0 0 1 0 (-1) 0 1 0 0.
Definition rF3 : mat3 := M3 0 (-1) 0 0 0 (-1) 1 0 0.
Definition at_x (A : mat3) (x : R) : mat4 := M4 A (V3 x 0 0) v0 1.
Ltac dhstep := unfold lspec; cbn [l_jt l_dh lr new_link da dalpha dd dtheta]; rewrite dhm_dhx; unfold dhx; rewrite ?cos_mPI2, ?sin_mPI2, ?cos_PI2, ?sin_PI2, ?cos_0, ?sin_0;
  unfold at_x, rF0, rF2, rF3, eye4, mid, v0; munf; cbn [rot pos brow bww vx vy vz m00 m01 m02 m10 m11 m12 m20 m21 m22]; f_equal; try f_equal; lra.
Lemma step0 : tmul eye4 (lspec (lr 0.18 (PI / 2) 0 0) 0) = at_x rF0 0.18. Proof. dhstep. Qed.
Lemma step1 : tmul (at_x rF0 0.18) (lspec (lr 0.6 0 0 0) 0) = at_x rF0 0.78. Proof. dhstep. Qed.
Lemma step2 : tmul (at_x rF0 0.78) (lspec (lr 0 (PI / 2) 0 0) (PI / 2)) = at_x rF2 0.78. Proof. dhstep. Qed.
Lemma step3 : tmul (at_x rF2 0.78) (lspec (lr 0 (- PI / 2) 0.62 0) 0) = at_x rF3 1.40. Proof. dhstep. Qed.
Lemma step4 : tmul (at_x rF3 1.40) (lspec (lr 0 (PI / 2) 0 0) 0) = at_x rF2 1.40. Proof. dhstep. Qed.
Lemma step5 : tmul (at_x rF2 1.40) (lspec (lr 0 0 0.115 0) 0) = at_x rF2 1.515. Proof. dhstep. Qed.
Notation krob := (KukaG 0.18 0.6 0.62 0.115).
Lemma frame0 : frame krob stretched 0 = at_x rF0 0.18. Proof. rewrite <- step0. reflexivity. Qed.
Lemma frame1 : frame krob stretched 1 = at_x rF0 0.78. Proof. rewrite <- step1, <- frame0. reflexivity. Qed.
Lemma frame2 : frame krob stretched 2 = at_x rF2 0.78. Proof. rewrite <- step2, <- frame1. reflexivity. Qed.
Lemma frame3 : frame krob stretched 3 = at_x rF3 1.40. Proof. rewrite <- step3, <- frame2. reflexivity. Qed.
Lemma frame4 : frame krob stretched 4 = at_x rF2 1.40. Proof. rewrite <- step4, <- frame3. reflexivity. Qed.
Lemma frame5 : frame krob stretched 5 = at_x rF2 1.515. Proof. rewrite <- step5, <- frame4. reflexivity. Qed.
(** the range of the first coordinate over a box of one of the links *)
Lemma box_x A X s x y z p : in_coll (coll1 s (pose_x 0 x y z)) (Some (at_x A X)) p ->
  exists u v w, Rabs u <= dx s / 2 /\ Rabs v <= dy s / 2 /\ Rabs w <= dz s / 2 /\ vx p = X + m00 A * (u + x) + m01 A * (v + y) + m02 A * (w + z).
Proof.
  intros (s' & T & ([|[|i]] & E1 & E2) & l & (L1 & L2 & L3) & ->); try discriminate. injection E1 as <-. injection E2 as <-.
  exists (vx l), (vy l), (vz l). repeat (split; [assumption|]). cbn [place]. unfold at_x, pose_x, tapply, tmul, v0. rewrite cos_0, sin_0. munf.
  cbn [rot pos brow bww vx vy vz m00 m01 m02 m10 m11 m12 m20 m21 m22]. ring.
Qed.
Ltac bx H := let u := fresh "u" in let v := fresh "v" in let w := fresh "w" in
  apply box_x in H; destruct H as (u & v & w & ?U & ?U & ?U & H); cbn [rF0 rF2 rF3 dx dy dz m00 m01 m02] in *;
  repeat match goal with U : Rabs _ <= _ |- _ => apply Rabs_le_inv in U end.
Definition lo (i : nat) : R := nth i [-0.06; 0.08; 0.70; 1.2; 1.4; 1.485] 0.
Definition hi (i : nat) : R := nth i [0.24; 0.88; 1.2; 1.4; 1.485; 1.515] 0.
Lemma link_range i l x : nth_error (r_links krob) i = Some l -> in_coll (l_geom l) (Some (frame krob stretched i)) x -> lo i <= vx x <= hi i.
Proof.
  intros E H. assert (L : (i < 6)%nat) by (change 6%nat with (length (r_links krob)); apply nth_error_Some; congruence).
  destruct i as [|[|[|[|[|[|i]]]]]]; [..|lia]; injection E as <-; cbn [l_geom] in H; cbn [lo hi nth].
  - rewrite frame0 in H. bx H. lra.
  - rewrite frame1 in H. bx H. lra.
  - rewrite frame2 in H. bx H. lra.
  - rewrite frame3 in H. bx H. lra.
  - rewrite frame4 in H. bx H. lra.
  - rewrite frame5 in H. bx H. lra.
Qed.
Lemma stretched_self : self_clear krob stretched.
Proof.
  split; [|intros tool tip i l x E; discriminate]. intros i j li lj x Ei Ej M Hi Hj.
  assert (Li : (i < 6)%nat) by (change 6%nat with (length (r_links krob)); apply nth_error_Some; congruence).
  assert (Lj : (j < 6)%nat) by (change 6%nat with (length (r_links krob)); apply nth_error_Some; congruence).
  apply (link_range i li x Ei) in Hi. apply (link_range j lj x Ej) in Hj. clear Ei Ej.
  destruct i as [|[|[|[|[|[|i]]]]]]; [..|lia]; (destruct j as [|[|[|[|[|[|j]]]]]]; [..|lia]); try discriminate M; cbn [lo hi nth] in *; lra.
Qed.
Lemma stretched_clear scene : c_s scene = [] -> clear krob scene stretched.
Proof. intros S. split; [|intros _; apply stretched_self]. intros x _ (s & T & (i & E & _) & _). rewrite S in E. destruct i; discriminate. Qed.
(** ** Inverse kinematics of the pose *)
Definition ahead : mat4 := frame6 1.515 0 0 0 (PI / 2) 0.
Lemma ahead_eq : ahead = M4 (M3 0 0 1 0 1 0 (-1) 0 0) (V3 1.515 0 0) v0 1.
Proof. unfold ahead, frame6, rot_xyz, rot_x, rot_y, rot_z. rewrite cos_0, sin_0, cos_PI2, sin_PI2. f_equal. munf. cbn [m00 m01 m02 m10 m11 m12 m20 m21 m22]. f_equal; ring. Qed.
Lemma ahead_sols : Forall (fun q => q = [0; 0; 0 + PI / 2; 0; 0; 0]) (kuka_sols 0.18 0.6 0.62 0.115 ahead) /\ kuka_sols 0.18 0.6 0.62 0.115 ahead <> [].
Proof.
  unfold kuka_sols. assert (C : centre 0.115 ahead = V3 1.4 0 0).
  { rewrite ahead_eq. unfold centre. munf. cbn [rot pos vx vy vz m00 m01 m02 m10 m11 m12 m20 m21 m22 col2]. f_equal; lra. }
  rewrite C. clear C. unfold arm_sols. cbn [vx vy vz]. assert (L : lxy (V3 1.4 0 0) = 1.4). { unfold lxy. cbn [vx vy]. replace (1.4 ^ 2 + 0 ^ 2) with (1.4 ^ 2) by ring. apply sqrt_pow2. lra. }
  rewrite L. assert (P : forall x, 0 < x -> atan2 0 x = 0). { intros x Hx. pose proof PI_RGT_0. pose proof (atan2_sin_cos x 0 Hx ltac:(lra)) as E. rewrite sin_0, cos_0 in E. rewrite Rmult_0_r, Rmult_1_r in E. exact E. }
  assert (B1 : branch 0.6 0.62 (atan2 0 1.4) (1.4 - 0.18) 0 = [[0; 0; 0]; [0; 0; 0]]).
  { unfold branch. assert (E : elbow_cos 0.6 0.62 (1.4 - 0.18) 0 = 1) by (unfold elbow_cos; field_simplify_eq; lra). rewrite E.
    assert (El : elbow 1 = Some 1). { pose proof tol_pos. unfold elbow, sgn. repeat (destruct (Rlt_dec _ _); try lra); reflexivity. }
    rewrite El. cbv zeta. replace (1 - 1 ^ 2) with 0 by ring. rewrite sqrt_0, Ropp_0. unfold two_link_q2. rewrite P by lra. rewrite (P 1) by lra.
    replace (0 * (0.6 + 0.62 * 1) - (1.4 - 0.18) * (0.62 * 0)) with 0 by ring. rewrite P by lra. reflexivity. }
  assert (B2 : branch 0.6 0.62 (atan2 (- (0)) (- (1.4))) (- (1.4) - 0.18) 0 = []).
  { unfold branch. assert (E : elbow (elbow_cos 0.6 0.62 (- (1.4) - 0.18) 0) = None). { apply elbow_None. unfold elbow_cos, tol. apply Rlt_le_trans with ((- (1.4) - 0.18) ^ 2 / (2 * 0.6 * 0.62) - 2); [lra|]. eapply Rle_trans; [|apply Rle_abs]. lra. }
    rewrite E. reflexivity. }
  rewrite B1, B2. cbn [app flat_map]. assert (W : arm_wrist ahead [0; 0; 0] = [[0; 0; 0 + PI / 2; 0; 0; 0]; [0; 0; 0 + PI / 2; 0; 0; 0]]).
  { cbn [arm_wrist]. rewrite ahead_eq. replace (mmul _ _) with (M3 (-1) 0 0 0 (-1) 0 0 0 1).
    - unfold wrist_angles. cbn [col0 col1 col2 vx vy vz m00 m01 m02 m10 m11 m12 m20 m21 m22 map app]. replace (0 ^ 2 + 0 ^ 2) with 0 by ring. rewrite sqrt_0, !Ropp_0, atan2_0_0, atan2_0_1. reflexivity.
    - unfold arm2_rot. replace (0 + (0 + PI / 2)) with (PI / 2) by ring. rewrite cos_0, sin_0, cos_PI2, sin_PI2. munf. cbn [rot m00 m01 m02 m10 m11 m12 m20 m21 m22]. f_equal; ring. }
  rewrite W. split; [repeat constructor|discriminate].
Qed.

(** ** The planner at this pose *)
Definition fixed_six : list num := [Fix 1.515; Fix 0; Fix 0; Fix 0; Fix (PI / 2); Fix 0].
Lemma ahead_samples p : new_eulerpt [Fix 1.515; Fix 0; Fix 0] [Fix 0; Fix (PI / 2); Fix 0] = Ok p -> euler_samples p = Ok [ahead].
Proof.
  intros E. destruct (euler_spec _ _ _ _ _ _ _ _ _ E) as (l & El & Ll & Hl); [repeat constructor|]. rewrite El. cbn in Ll. destruct l as [|T [|]]; try discriminate.
  f_equal. f_equal. destruct (proj1 (Hl T) (or_introl eq_refl)) as (x & y & z & a & b & c & F & ->). apply Forall2_6 in F. destruct F as (x' & y' & z' & a' & b' & c' & F & F1 & F2 & F3 & F4 & F5 & F6).
  injection F as <- <- <- <- <- <-. cbn in F1, F2, F3, F4, F5, F6. subst. reflexivity.
Qed.
Lemma ahead_allowed p T : new_eulerpt [Fix 1.515; Fix 0; Fix 0] [Fix 0; Fix (PI / 2); Fix 0] = Ok p -> allowed (PEuler p) T <-> T = ahead.
Proof.
  intros E. unfold allowed. destruct (euler_fields _ _ _ _ _ _ _ _ _ E) as (-> & -> & _). cbn [firstn app]. split.
  - intros (_ & x & y & z & a & b & c & F & ->). apply Forall2_6 in F. destruct F as (x' & y' & z' & a' & b' & c' & F & F1 & F2 & F3 & F4 & F5 & F6).
    injection F as <- <- <- <- <- <-. cbn in F1, F2, F3, F4, F5, F6. subst. reflexivity.
  - intros ->. split; [apply frame6_rigid|]. do 6 eexists. split; [|reflexivity]. repeat constructor.
Qed.
Lemma stretched_plus : [0; 0; 0 + PI / 2; 0; 0; 0] = stretched.
Proof. unfold stretched. rewrite Rplus_0_l. reflexivity. Qed.
Lemma kuka_object_mount X : mount (k_rob kuka_object) X = X.
Proof. unfold mount, tooled. cbn [kuka_object k_rob KukaG set_geom set_links r_tfb r_tool Kuka robot_init]. apply tmul_1_l. Qed.
Lemma ahead_free prim scene q : exact_prim prim -> c_s scene = [] -> rigid_coll scene -> In q (kuka_free prim kuka_object scene ahead) <-> q = stretched.
Proof.
  intros X S C. rewrite (kuka_free_spec prim 0.18 0.6 0.62 0.115 ltac:(lra) kuka_object kuka_object_ok). unfold free, kikp.
  replace (unmount (k_rob kuka_object) ahead) with ahead by (rewrite <- kuka_object_mount; symmetry; apply mount_unmount; [apply rigid_eye|exact I]).
  destruct ahead_sols as [A N]. destruct (kuka_sols _ _ _ _ ahead) as [|q0 l] eqn:E; [congruence|]. rewrite Forall_forall in A. rewrite stretched_plus in A.
  assert (H : hit prim (k_rob kuka_object) scene stretched = false).
  { apply (free_iff_clear prim); auto; [apply kukaG_good|apply kuka_rigid|cbn; lia|apply kuka_object_solid|apply stretched_clear; auto]. }
  split; intros G.
  - apply filter_In in G. apply A, G.
  - subst q. apply filter_In. rewrite H. split; auto. rewrite <- (A q0 (or_introl eq_refl)). left. reflexivity.
Qed.
Lemma plan_singular prim to32 pq ypr fuel scene : exact_prim prim -> c_s scene = [] -> rigid_coll scene -> exists p c F F',
  new_eulerpt [Fix 1.515; Fix 0; Fix 0] [Fix 0; Fix (PI / 2); Fix 0] = Ok p /\ pt_ok 1 (PEuler p) /\
  snd (kuka_plan prim to32 (K := RCost) rsq pq (pt_samples ypr fuel 1) scene [PEuler p] "bfs" None kuka_object) = Ok (GspOk [map to32 stretched] c) /\
  snd (fk (k_rob kuka_object) stretched) = Ok F /\ ~ allowed (PEuler p) F /\
  snd (fk (k_rob kuka_object) [0; 0; PI / 2; 0; 0; PI]) = Ok F' /\ allowed (PEuler p) F'.
Proof.
  intros X S C. destruct (new_eulerpt [Fix 1.515; Fix 0; Fix 0] [Fix 0; Fix (PI / 2); Fix 0]) as [p| |] eqn:E; try discriminate.
  assert (Cand : forall q, candidate prim kuka_object scene (pt_samples ypr fuel 1) (PEuler p) q <-> q = stretched).
  { intros q. unfold candidate. cbn [pt_samples]. rewrite (ahead_samples p E). split.
    - intros (Ts & T & E1 & I1 & I2). injection E1 as <-. destruct I1 as [<-|[]]. eapply ahead_free; eauto.
    - intros ->. exists [ahead], ahead. split; auto. split; [left; auto|]. apply ahead_free; auto. }
  destruct (kuka_plan_bfs prim to32 0.18 0.6 0.62 0.115 ltac:(lra) kuka_object kuka_object_ok scene (pt_samples ypr fuel 1) [PEuler p] None) with (pq := pq) as (rows & H1 & H2 & _); [discriminate| |].
  { constructor; [|constructor]. exists stretched. apply Cand. reflexivity. }
  inversion H2 as [|? row ? rows' (q & Hq & ->) H3]; subst. inversion H3; subst. apply Cand in Hq. subst q.
  exists p. eexists. do 2 eexists. split; [reflexivity|]. split.
  { split; [eauto|]. destruct (euler_fields _ _ _ _ _ _ _ _ _ E) as (-> & -> & _). repeat constructor. }
  split; [exact H1|]. pose proof (ko_rob _ _ _ _ _ kuka_object_ok) as L.
  split; [unfold stretched; apply (kuka_fk_mount 0.18 0.6 0.62 0.115); auto|]. split.
  { rewrite (ahead_allowed p _ E), ahead_eq, kuka_object_mount. intros H. apply (f_equal (fun T => m11 (rot T))) in H. unfold kuka_form, arm2_rot, zyz, rot_z, rot_y in H. cbv zeta in H. cbn [rot] in H.
    rewrite Rplus_0_l, !cos_0, !sin_0, !sin_PI2, !cos_PI2 in H. unfold mmul in H. cbn [m00 m01 m02 m10 m11 m12 m20 m21 m22] in H. lra. }
  split; [apply (kuka_fk_mount 0.18 0.6 0.62 0.115); auto|]. rewrite (ahead_allowed p _ E), ahead_eq, kuka_object_mount.
  assert (A : mmul (arm2_rot 0 (0 + PI / 2)) (zyz 0 0 PI) = M3 0 0 1 0 1 0 (-1) 0 0).
  { unfold arm2_rot, zyz, rot_z, rot_y. rewrite Rplus_0_l, cos_0, sin_0, sin_PI2, cos_PI2, cos_PI, sin_PI. unfold mmul. cbn [m00 m01 m02 m10 m11 m12 m20 m21 m22]. f_equal; ring. }
  unfold kuka_form, kuka_centre. cbv zeta. rewrite A, !Rplus_0_l, cos_0, sin_0, sin_PI2, cos_PI2. f_equal.
  unfold vadd, vscale. cbn [col2 vx vy vz m02 m12 m22]. f_equal; lra.
Qed.

(** ** A pose away from the singularities *)
Lemma bent_samples p : new_eulerpt [Fix 0.895; Fix 0; Fix (-0.62)] [Fix 0; Fix (PI / 2); Fix PI] = Ok p -> euler_samples p = Ok [frame6 0.895 0 (-0.62) 0 (PI / 2) PI].
Proof.
  intros E. destruct (euler_spec _ _ _ _ _ _ _ _ _ E) as (l & El & Ll & Hl); [repeat constructor|]. rewrite El. cbn in Ll. destruct l as [|T [|]]; try discriminate.
  f_equal. f_equal. destruct (proj1 (Hl T) (or_introl eq_refl)) as (x & y & z & a & b & c & F & ->). apply Forall2_6 in F. destruct F as (x' & y' & z' & a' & b' & c' & F & F1 & F2 & F3 & F4 & F5 & F6).
  injection F as <- <- <- <- <- <-. cbn in F1, F2, F3, F4, F5, F6. subst. reflexivity.
Qed.
Lemma bent_form : kuka_form 0.18 0.6 0.62 0.115 0 0 0 0 (PI / 2) 0 = frame6 0.895 0 (-0.62) 0 (PI / 2) PI.
Proof.
  assert (A : mmul (arm2_rot 0 (0 + 0)) (zyz 0 (PI / 2) 0) = rF2).
  { unfold arm2_rot, zyz, rot_z, rot_y, rF2. rewrite Rplus_0_l, cos_0, sin_0, sin_PI2, cos_PI2. unfold mmul. cbn [m00 m01 m02 m10 m11 m12 m20 m21 m22]. f_equal; ring. }
  assert (B : rot_xyz 0 (PI / 2) PI = rF2).
  { unfold rot_xyz, rot_x, rot_y, rot_z, rF2. rewrite cos_0, sin_0, sin_PI2, cos_PI2, cos_PI, sin_PI. unfold mmul. cbn [m00 m01 m02 m10 m11 m12 m20 m21 m22]. f_equal; ring. }
  unfold kuka_form, kuka_centre, frame6. cbv zeta. rewrite A, B, !Rplus_0_l, cos_0, sin_0. f_equal. unfold vadd, vscale, rF2. cbn [col2 vx vy vz m02 m12 m22]. f_equal; lra.
Qed.
Lemma bare_clear scene q : c_s scene = [] -> clear (Kuka 0.18 0.6 0.62 0.115) scene q.
Proof.
  intros S. split; [intros x _ (s & T & (i & E & _) & _); rewrite S in E; destruct i; discriminate|]. intros _. split; [|intros; discriminate].
  intros i j li lj x Ei _ _ (s & T & (m & E & _) & _) _. apply nth_error_In in Ei. cbn in Ei. repeat (destruct Ei as [<-|Ei]; [destruct m; discriminate|]). destruct Ei.
Qed.
Lemma bent_reachable ypr fuel n : exists p, reachable 0.18 0.6 0.62 (new_kuka 0.18 0.6 0.62 0.115) (Coll [] []) (pt_samples ypr fuel n) (PEuler p) /\ pt_ok n (PEuler p).
Proof.
  destruct (new_eulerpt [Fix 0.895; Fix 0; Fix (-0.62)] [Fix 0; Fix (PI / 2); Fix PI]) as [p| |] eqn:E; try discriminate. exists p. split.
  - exists [frame6 0.895 0 (-0.62) 0 (PI / 2) PI], (frame6 0.895 0 (-0.62) 0 (PI / 2) PI), 0, 0, 0, 0, (PI / 2), 0. cbn [pt_samples]. rewrite (bent_samples p E). split; auto. split; [left; auto|].
    split; [rewrite <- bent_form; apply kuka_fk|]. split; [apply sqrt_lt_R0; unfold kuka_centre; cbn [vx vy]; rewrite Rplus_0_l, sin_0, cos_0; lra|].
    rewrite sin_0, Rabs_R0, sin_PI2. unfold tol. split; [lra|]. split; [lra|]. apply bare_clear. reflexivity.
  - split; [eauto|]. destruct (euler_fields _ _ _ _ _ _ _ _ _ E) as (-> & -> & _). repeat constructor.
Qed.
