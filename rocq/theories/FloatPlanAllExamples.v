(** * Solutions the planner does not lose in floating point: cases for C154. *)
From Coq Require Import String Reals Lra Lia Psatz List Bool Arith ZArith Permutation.
From Flocq Require Import Core.
From Verif Require Import PyBase Cost SpecPath GraphCommon CppGraph CppGraphProofs CppExamples Mat Util UtilProofs Geometry GeometryProofs Robot RobotProofs RobotForms Ik IkProofs KukaProofs PumaProofs Path PathProofs Planning PlanningProofs Resources ResourcesProofs TaskProofs Pipeline PipelineProofs PipelineExamples Motion MotionKuka.
From Verif Require Import FloatFk FloatFkProofs FloatColl FloatCollProofs FloatIk FloatIkProofs FloatIkArm FloatIkWrist FloatIkKuka FloatIkDouble FloatPlan FloatPlanProofs FloatPlanExamples FloatIkAll FloatPlanAll.
Import ListNotations.
Local Open Scope R_scope.

(** examples/path_in_box.py:27 bot.do_check_self_collision = False *)
Definition quiet (k : kuka) : kuka :=
  Kk (let r := k_rob k in Rb (r_links r) (r_limits r) (r_base r) (r_tool r) (r_tfb r) (r_mat r) false (r_prio r)) (k_arm k) (k_wrist k).
Definition shop : kuka := quiet kuka_object.
Definition far_box : coll := Coll [Shape 1 1 1] [M4 mid (V3 5 0 0) v0 1].
Lemma shop_std : kuka_std shop.
Proof. destruct object_std as [[[G LL] KA B0 TT] KB KL KT]. split; [split; [split; [destruct G; split; auto|exact LL]|exact KA|exact B0|exact TT]|exact KB|exact KL|exact I]. Qed.
Lemma shop_solid : solid (k_rob shop). Proof. exact kuka_object_solid. Qed.
Lemma shop_sizes : robot_size 10 10 (k_rob shop) /\ robot_size 0.8 0.6 (k_rob shop).
Proof.
  split; [exact object_size|]. split; [|split; intros; discriminate]. unfold shop, quiet, kuka_object. cbn [k_rob r_links]. geoms.
  assert (K : forall s x y z, dx s + dy s + dz s <= 1.6 -> -0.3 <= x <= 0.3 -> -0.1 <= y <= 0.1 -> -0.2 <= z <= 0.2 -> coll_size 0.8 0.6 (coll1 s (pose_x 0 x y z))).
  { intros s x y z Hs Hx Hy Hz. split; cbn [coll1 c_s c_tf]; apply Forall_cons; try apply Forall_nil; [lra|]. unfold pose_x. cbn [pos]. eapply Rle_trans; [apply len_abs_le|cbn [vx vy vz]].
    assert (Rabs x <= 0.3) by (apply Rabs_le; lra). assert (Rabs y <= 0.1) by (apply Rabs_le; lra). assert (Rabs z <= 0.2) by (apply Rabs_le; lra). lra. }
  repeat (apply Forall_cons; [cbn [l_geom]; apply K; cbn [dx dy dz]; lra|]). apply Forall_nil.
Qed.
(** the margins at side_joints *)
Lemma side_regular : regular 0.7 0.9 0.7 0.9 side_joints.
Proof.
  exists 0, 0, 0, (PI / 2), (PI / 2), 0. split; [reflexivity|]. rewrite Rplus_0_r, cos_0, sin_0, sin_PI2. rewrite !Rabs_pos_eq by lra. repeat split; lra.
Qed.
Lemma side_err : turn_err u64 0.7 0.9 0.7 0.9 <= 6e-7 /\ sway 0.7 0.9 0.7 0.9 0.8 0.6 <= 8e-6.
Proof.
  pose proof u64_pos as U0. pose proof u64_le as U1. assert (W : turn_err u64 0.7 0.9 0.7 0.9 <= 6e-7) by (unfold turn_err, wdir; lra). split; auto. unfold sway, kuka_size. rewrite !Rabs_pos_eq by lra.
  assert (0 <= turn_err u64 0.7 0.9 0.7 0.9) by (unfold turn_err, wdir; lra). lra.
Qed.
Lemma span_firstn : forall n ls q, span (firstn n ls) q <= span ls q.
Proof. induction n as [|n IH]; intros [|l ls] [|x q]; cbn [firstn span]; try lra; [pose proof (span_nonneg (l :: ls) (x :: q)) as H; cbn [span] in H; lra|]. pose proof (IH ls q). lra. Qed.
Lemma shop_far q x : length q = 6%nat -> in_robot (k_rob shop) q x -> len x <= 2.915.
Proof.
  intros Lq [(b & B & _)|[(i & l & El & (s & T & Hm & (y & Hy & ->)))|(tl & tip & B & _)]]; try discriminate B. pose proof (nth_error_In _ _ El) as Il.
  destruct shop_sizes as [_ (ZL & _)]. rewrite Forall_forall in ZL. destruct (ZL _ Il) as [Z1 Z2]. destruct shop_solid as (_ & RL & _). unfold rigid_links in RL. rewrite Forall_forall in RL. pose proof (RL _ Il) as RC. unfold rigid_coll in RC.
  destruct Hm as (j & E1 & E2). apply nth_error_In in E1. apply nth_error_In in E2. rewrite Forall_forall in Z1, Z2, RC. specialize (Z1 _ E1). specialize (Z2 _ E2). specialize (RC _ E2). cbn [place].
  destruct Hy as (hx & hy & hz). pose proof (len_abs_le y) as LY. assert (RF : rigid (frame (k_rob shop) q i)) by (apply frame_rigid; apply shop_solid). rewrite tapply_tmul by auto.
  pose proof (len_tapply_le T y RC) as LT. set (v := tapply T y) in *. unfold frame. rewrite combine_firstn. fold (chain (firstn (S i) (r_links (k_rob shop))) q (r_tfb (k_rob shop))).
  change (r_tfb (k_rob shop)) with eye4. pose proof (chain_len (firstn (S i) (r_links (k_rob shop))) q v) as CL.
  assert (SP : span (firstn (S i) (r_links (k_rob shop))) q <= 1.515).
  { destruct q as [|q1 [|q2 [|q3 [|q4 [|q5 [|q6 [|]]]]]]]; try discriminate Lq. rewrite <- (kuka_span (k_rob shop) q1 q2 q3 q4 q5 q6) by apply (ko_rob _ _ _ _ _ (ks_ok _ shop_std)). apply span_firstn. }
  lra.
Qed.
Lemma shop_clear d q : d <= 1 -> length q = 6%nat -> clear_by d (k_rob shop) far_box q.
Proof.
  intros Hd Lq. split; [|discriminate]. intros x y Hx (s & T & (j & E1 & E2) & (l & (lx & _) & ->)). pose proof (shop_far q x Lq Hx) as B. destruct j as [|[|]]; try discriminate E1. cbn in E1, E2. injection E1 as <-. injection E2 as <-. cbn [dx] in lx.
  set (y := tapply (place None (M4 mid (V3 5 0 0) v0 1)) l). assert (Y : 4.5 <= vx y) by (unfold y; destruct l as [a b c]; cbn in *; apply Rabs_le_inv in lx; lra).
  pose proof (len_comp (vsub x y)) as (C & _). pose proof (len_comp x) as (C' & _). apply Rabs_le_inv in C'. assert (Z : vx (vsub x y) = vx x - vx y) by reflexivity. rewrite Z in C. apply Rabs_le_inv in C. lra.
Qed.
Lemma shop_good : pt_good shop 0 far_box 0.7 0.9 0.7 0.9 0.8 0.6 side_pt.
Proof.
  destruct side_sample as (Ts & E & I1). exists Ts, (frame6 0.78 (-0.115) (-0.62) (PI / 2) 0 (PI / 2)), side_joints. split; auto. split; auto. split; [|split].
  - unfold side_joints. rewrite (kuka_fk_mount 0.18 0.6 0.62 0.115); [|apply (ko_rob _ _ _ _ _ (ks_ok _ shop_std))]. rewrite side_pose. f_equal. apply tmul_1_l.
  - exact side_regular.
  - apply shop_clear; [|reflexivity]. pose proof side_err. lra.
Qed.
Lemma shop_plan pq : exists data rows c, snd (fkuka_columns double_ik box_test f32 (round_coll far_box) [side_pt; side_pt] (round_object shop)) = Ok (arrays F32 6 (map (map (map f32)) data)) /\
  Forall (fun l => exists q, In q l /\ near_row u64 0.7 0.9 0.7 0.9 q side_joints) data /\
  snd (fkuka_plan double_ik box_test f32 (K := RCost) rsq pq (round_coll far_box) [side_pt; side_pt] "bfs" None (round_object shop)) = Ok (GspOk rows c).
Proof.
  destruct (plan_all shop shop_std shop_solid (proj1 shop_sizes) box_test 0 box_test_within ltac:(lra) far_box (round_coll far_box)) with (m1 := 0.7) (m3 := 0.9) (w := 0.7) (m5 := 0.9) (D := 0.8) (L := 0.6) (path := [side_pt; side_pt]) (ow := @None (list R)) (k' := round_object shop) (pq := pq) as (data & rows & H1 & H2 & H3 & _); try lra.
  - apply Forall_cons; [|apply Forall_nil]. constructor; cbn; auto using rotation_mid.
  - apply round_coll_near.
  - split; cbn [far_box c_s c_tf]; (apply Forall_cons; [|apply Forall_nil]); [cbn; lra|]. cbn [pos]. rewrite len_x, Rabs_right; lra.
  - exact (proj2 shop_sizes).
  - repeat (apply Forall_cons; [apply side_fine; reflexivity|]). apply Forall_nil.
  - repeat (apply Forall_cons; [apply shop_good|]). apply Forall_nil.
  - discriminate.
  - destruct object_angles as [A1 A2]. apply round_object_same; auto. apply (ko_rob _ _ _ _ _ (ks_ok _ shop_std)).
  - exists data, rows. eexists. split; [exact H1|]. split; [|exact H3]. destruct side_sample as (Ts' & E' & I').
    assert (K : forall p l, p = side_pt -> full shop 0 far_box 0.7 0.9 0.7 0.9 0.8 0.6 p l -> exists q, In q l /\ near_row u64 0.7 0.9 0.7 0.9 q side_joints).
    { intros p l -> [_ F]. apply (F Ts' _ side_joints E' I'). split; [|split].
      - unfold side_joints. rewrite (kuka_fk_mount 0.18 0.6 0.62 0.115); [|apply (ko_rob _ _ _ _ _ (ks_ok _ shop_std))]. rewrite side_pose. f_equal. apply tmul_1_l.
      - exact side_regular.
      - apply shop_clear; [|reflexivity]. pose proof side_err. lra. }
    inversion H2 as [|? l1 ? ls1 F1 H2']; subst. inversion H2' as [|? l2 ? ls2 F2 H2'']; subst. inversion H2''; subst. apply Forall_cons; [eauto|]. apply Forall_cons; [eauto|apply Forall_nil].
Qed.
