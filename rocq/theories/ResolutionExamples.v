(** * A point whose given number of samples misses the reachable part: example and counterexample of C142. *)
From Coq Require Import String Reals Lra Lia Psatz List Bool Arith ZArith.
From Verif Require Import PyBase Cost SpecPath GraphCommon CppGraph CppGraphProofs CppSearch CppHeap CppMain CppExamples Mat Util UtilProofs HaltonProofs Geometry GeometryProofs Robot RobotProofs RobotForms Ik IkProofs KukaProofs RailProofs Path PathProofs Planning PlanningProofs PlanningCart Resources ResourcesProofs TaskProofs Pipeline PipelineProofs PipelineExamples Motion LocalIk Margin GridCover Resolution.
Import ListNotations.
Local Open Scope R_scope.

(** a tolerance of twenty metres around a reachable pose, with two samples *)
Definition slack : eulerpt := EulerPt [Tol (TN (-9.105) 10.895 0.895 2); Fix 0; Fix (-0.62)] [Fix 0; Fix (PI / 2); Fix PI] [0.895; 0; -0.62; 0; PI / 2; PI].
Lemma slack_new : exists p, new_eulerpt [Tol (TN (-9.105) 10.895 0.895 2); Fix 0; Fix (-0.62)] [Fix 0; Fix (PI / 2); Fix PI] = Ok p /\ p = slack.
Proof. eexists. split; [reflexivity|]. unfold slack. reflexivity. Qed.
Lemma slack_ok n : pt_ok n (PEuler slack) /\ gridded (PEuler slack).
Proof. split; [|exact I]. split; [destruct slack_new as (p & E & ->); eauto|]. cbn. repeat constructor; cbn; try lra; lia. Qed.
Definition bare : kuka := new_kuka 0.18 0.6 0.62 0.115.
Definition bent : list R := [0; 0; 0; 0; PI / 2; 0].
Lemma bent_serves : serves 0.18 0.6 0.62 bare (Coll [] []) (PEuler slack) bent /\ interior bent.
Proof.
  pose proof PI_RGT_0. split; [|cbn; lra]. exists (frame6 0.895 0 (-0.62) 0 (PI / 2) PI), 0, 0, 0, 0, (PI / 2), 0. split; auto. split.
  - split; [split; cbn; auto; apply rot_xyz_rotation|]. exists 0.895, 0, (-0.62), 0, (PI / 2), PI. split; auto. cbn. repeat constructor; cbn; lra.
  - split; [rewrite <- bent_form; apply kuka_fk|]. split; [apply sqrt_lt_R0; unfold kuka_centre; cbn [vx vy]; rewrite Rplus_0_l, sin_0, cos_0; lra|].
    rewrite sin_0, Rabs_R0, sin_PI2. unfold tol. split; [lra|]. split; [lra|]. apply bare_clear. reflexivity.
Qed.
Lemma bare_solid : solid (k_rob bare).
Proof. split; [apply rigid_eye|]. split; [cbn; repeat constructor|]. split; intros; discriminate. Qed.
Lemma far_none r z : 9 <= Rabs r -> elbow (elbow_cos 0.6 0.62 r z) = None.
Proof.
  intros H. assert (81 <= r ^ 2) by (rewrite <- (pow2_abs r); nra). unfold elbow. destruct (Rlt_dec (1 + tol) (elbow_cos 0.6 0.62 r z)) as [|N]; auto. exfalso. apply N.
  pose proof (pow2_ge_0 z). pose proof (elbow_cos_spec 0.6 0.62 default_ne r z). unfold tol. lra.
Qed.
Lemma far_sols x : 9.2 <= Rabs (x - 0.115) -> kuka_sols 0.18 0.6 0.62 0.115 (frame6 x 0 (-0.62) 0 (PI / 2) PI) = [].
Proof.
  intros H. unfold kuka_sols. assert (C : centre 0.115 (frame6 x 0 (-0.62) 0 (PI / 2) PI) = V3 (x - 0.115) 0 (-0.62)).
  { unfold centre, frame6. cbn [rot pos]. unfold rot_xyz, rot_x, rot_y, rot_z. rewrite cos_0, sin_0, sin_PI2, cos_PI2, cos_PI, sin_PI. unfold mmul, vsub, vscale, col2. cbn [m00 m01 m02 m10 m11 m12 m20 m21 m22 vx vy vz]. f_equal; lra. }
  rewrite C. assert (L : lxy (V3 (x - 0.115) 0 (-0.62)) = Rabs (x - 0.115)). { unfold lxy. cbn [vx vy]. replace ((x - 0.115) ^ 2 + 0 ^ 2) with (Rsqr (x - 0.115)) by (unfold Rsqr; ring). apply sqrt_Rsqr_abs. }
  unfold arm_sols. rewrite L. unfold branch. rewrite !far_none; [reflexivity| |]; [rewrite Rabs_left by lra|rewrite Rabs_right by lra]; lra.
Qed.
Lemma bare_unmount T : unmount (k_rob bare) T = T.
Proof. assert (E : mount (k_rob bare) (unmount (k_rob bare) T) = T) by (apply mount_unmount; [apply rigid_eye|exact I]). unfold mount, tooled in E. cbn [bare new_kuka k_rob Kuka robot_init r_tfb r_tool] in E. rewrite tmul_1_l in E. exact E. Qed.
Lemma slack_missed prim to32 {K : CostStruct} (sq_acc : K -> R -> R -> R -> K) pq ypr fuel n method ow :
  snd (kuka_plan prim to32 sq_acc pq (pt_samples ypr fuel n) (Coll [] []) [PEuler slack] method ow bare) = Raise AttributeError.
Proof.
  rewrite (kuka_plan_eq prim to32 0.18 0.6 0.62 0.115 default_ne bare (new_kuka_ok _ _ _ _)). cbn [mapM pt_samples].
  destruct slack_new as (p & E & Ep). destruct (euler_spec _ _ _ _ _ _ _ _ _ E) as (l & El & Ll & Hl); [repeat constructor; cbn; lia|]. rewrite Ep in El. rewrite El. cbn [bind map].
  assert (Z : flat_map (kuka_free prim bare (Coll [] [])) l = []).
  { assert (Q : forall T, In T l -> kuka_free prim bare (Coll [] []) T = []).
    { intros T HT. apply Hl in HT. destruct HT as (x & y & z & a & b & c & F & ->). apply Forall2_6 in F. destruct F as (x' & y' & z' & a' & b' & c' & F & F1 & F2 & F3 & F4 & F5 & F6).
      injection F as <- <- <- <- <- <-. cbn in F2, F3, F4, F5, F6. subst. rewrite (kuka_free_spec prim 0.18 0.6 0.62 0.115 default_ne bare (new_kuka_ok _ _ _ _)). unfold kikp. rewrite bare_unmount, far_sols; [reflexivity|].
      cbn in F1. assert (Hx : x = -9.105 \/ x = 10.895). { destruct F1 as [[-> _]|(i & Hi & _ & ->)]; [left; reflexivity|]. change (Pos.to_nat 2) with 2%nat in *. destruct i as [|[|i]]; [left|right|exfalso; lia]; cbn; lra. }
      destruct Hx as [->| ->]; [rewrite Rabs_left by lra|rewrite Rabs_right by lra]; lra. }
    clear - Q. induction l as [|T l IH]; auto. cbn [flat_map]. rewrite Q by (left; auto). apply IH. intros. apply Q. right; auto. }
  rewrite Z. reflexivity.
Qed.

(** ** Random orientations need not fill anything *)
Definition stuck (n : nat) : pathpt := PFree [0; 0; 0] (repeat [0; 0; 0] n).
Lemma mapM_repeat {A B} (f : A -> res B) a b n : f a = Ok b -> mapM f (repeat a n) = Ok (repeat b n).
Proof. intros E. induction n as [|n IH]; cbn [repeat mapM]; auto. rewrite E. cbn [bind]. rewrite IH. reflexivity. Qed.
Lemma map_rep {A B} (f : A -> B) a n : map f (repeat a n) = repeat (f a) n.
Proof. induction n; cbn; congruence. Qed.
Lemma stuck_samples ypr fuel n : exists T0, rigid T0 /\ pos T0 = v0 /\ pt_samples ypr fuel n (stuck n) = Ok (repeat T0 n).
Proof.
  set (q := quat_of 0 0 0). exists (M4 (rot (qtransform q)) (V3 0 0 0) (brow (qtransform q)) (bww (qtransform q))).
  assert (E : pt_samples ypr fuel n (stuck n) = Ok (repeat (M4 (rot (qtransform q)) (V3 0 0 0) (brow (qtransform q)) (bww (qtransform q))) n)).
  { unfold stuck, pt_samples, free_samples, sample_SO3. cbn [String.eqb Ascii.eqb Bool.eqb]. rewrite repeat_length, Nat.ltb_irrefl. cbn [bind]. rewrite firstn_all2 by (rewrite repeat_length; auto).
    rewrite (mapM_repeat _ _ q) by reflexivity. cbn [bind]. rewrite map_rep. rewrite (mapM_repeat _ _ (M4 (rot (qtransform q)) (V3 0 0 0) (brow (qtransform q)) (bww (qtransform q)))) by reflexivity. reflexivity. }
  split; [|split; auto]. assert (R : rigid (qtransform q)) by (apply qtransform_rigid; unfold q; rewrite quat_unit; lra). destruct R as [R1 R2 R3]. split; cbn [rot brow bww]; auto.
Qed.
Lemma stuck_gap ypr fuel n : exists Ts T, pt_samples ypr fuel n (stuck n) = Ok Ts /\ length Ts = n /\ pt_ok n (stuck n) /\ allowed (stuck n) T /\ forall T', In T' Ts -> ~ within_of 1 T T'.
Proof.
  destruct (stuck_samples ypr fuel n) as (T0 & R0 & P0 & E). exists (repeat T0 n), (M4 (mmul (rot T0) (rot_z PI)) v0 v0 1). split; auto. split; [apply repeat_length|]. split.
  { split; [reflexivity|]. split; [rewrite repeat_length; apply le_n|]. apply Forall_forall. intros x H. apply repeat_spec in H. subst x. exists 0, 0, 0. split; auto. lra. }
  split. { split; [split; cbn; auto; apply rotation_mmul; [apply R0|apply rot_z_rotation]|]. reflexivity. }
  intros T' HT [_ W]. apply repeat_spec in HT. subst T'. specialize (W (V3 1 0 0)). cbn [rot] in W. rewrite mapply_mmul, len_rot_diff in W by apply R0. unfold len in W.
  assert (Z : norm2 (vsub (mapply (rot_z PI) (V3 1 0 0)) (V3 1 0 0)) = 4). { unfold rot_z. rewrite cos_PI, sin_PI. unfold norm2, vdot, vsub, mapply. cbn [vx vy vz m00 m01 m02 m10 m11 m12 m20 m21 m22]. ring. }
  rewrite Z in W. replace (norm2 (V3 1 0 0)) with 1 in W by (unfold norm2, vdot; cbn [vx vy vz]; ring). rewrite sqrt_1 in W. replace 4 with (2 * 2) in W by lra. rewrite sqrt_square in W by lra. lra.
Qed.
Lemma random_gap ypr fuel n : exists tp Ts T, pt_ok n tp /\ allowed tp T /\ pt_samples ypr fuel n tp = Ok Ts /\ length Ts = n /\ forall T', In T' Ts -> ~ within_of 1 T T'.
Proof. destruct (stuck_gap ypr fuel n) as (Ts & T & H). exists (stuck n), Ts, T. tauto. Qed.
Lemma few_samples : exists k scene tp, kuka_ok 0.18 0.6 0.62 0.115 k /\ solid (k_rob k) /\ rigid_coll scene /\ gridded tp /\ (forall n, pt_ok n tp) /\
  (exists q, serves 0.18 0.6 0.62 k scene tp q) /\
  forall prim to32 (K : CostStruct) (sq_acc : K -> R -> R -> R -> K) pq ypr fuel n method ow,
  snd (kuka_plan prim to32 sq_acc pq (pt_samples ypr fuel n) scene [tp] method ow k) = Raise AttributeError.
Proof.
  exists bare, (Coll [] []), (PEuler slack). split; [apply new_kuka_ok|]. split; [exact bare_solid|]. split; [constructor|]. split; [exact I|]. split; [intros; apply slack_ok|].
  split; [exists bent; apply bent_serves|]. intros. apply slack_missed.
Qed.
Lemma check_open prim r scene q : exact_prim prim -> good r -> joints_ok r -> (1 <= ndof r <= length q)%nat -> solid r -> rigid_coll scene -> hit prim r scene q = false ->
  exists d, 0 < d /\ forall q', joints_within d q q' -> hit prim r scene q' = false.
Proof.
  intros X G J N S C H. apply (free_iff_clear prim) in H; auto. destruct (clear_open r scene q S C H) as (d & Hd & K). exists d. split; auto. intros q' W.
  apply (free_iff_clear prim); auto. replace (length q') with (length q); auto. clear - W. induction W; cbn; auto.
Qed.
