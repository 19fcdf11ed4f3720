(** * Lemmas about collision-free arms, the torch, weld lines and the table. *)
From Coq Require Import Reals Lra Psatz Lia List Bool Arith ZArith Permutation.
From Verif Require Import PyBase Mat Util UtilProofs HaltonProofs Geometry GeometryProofs Robot RobotProofs RobotForms Ik IkProofs KukaProofs RailProofs Path PathProofs Resources ResourcesProofs.
Import ListNotations.
Local Open Scope R_scope.

(** ** C102 *)
Definition rigid_links (r : robot) : Prop := Forall (fun l => rigid_coll (l_geom l)) (r_links r).
Lemma free_in_links prim r q scene x : exact_prim prim -> good r -> joints_ok r -> (ndof r <= length q)%nat -> (r_tool r <> None -> (1 <= ndof r)%nat) ->
  rigid (r_tfb r) -> rigid_links r -> rigid_coll scene -> snd (robot_collision prim r q scene) = Ok false -> in_links r q x -> ~ in_coll scene None x.
Proof.
  intros X G J L T B RL S E (i & l & El & Hx) Hs. destruct (collision_correct prim r q scene G J L T) as (b & E' & Hb). rewrite E in E'. injection E' as <-.
  assert (C : is_in_collision prim (l_geom l) scene (Some (frame r q i)) None = true).
  { apply collision_points; auto; [|apply frame_rigid; auto|exact Logic.I|eauto]. unfold rigid_links in RL. rewrite Forall_forall in RL. apply RL. eapply nth_error_In; eauto. }
  assert (false = true); [|discriminate]. apply Hb. right. left. eauto.
Qed.
Lemma free_tool prim r q scene x tool tip : exact_prim prim -> good r -> joints_ok r -> (ndof r <= length q)%nat -> (1 <= ndof r)%nat ->
  rigid (r_tfb r) -> r_tool r = Some (tool, tip) -> rigid_coll tool -> rigid_coll scene -> snd (robot_collision prim r q scene) = Ok false ->
  in_coll tool (Some (frame r q (ndof r - 1))) x -> ~ in_coll scene None x.
Proof.
  intros X G J L T B Et RT S E Hx Hs. destruct (collision_correct prim r q scene G J L (fun _ => T)) as (b & E' & Hb). rewrite E in E'. injection E' as <-.
  assert (C : is_in_collision prim tool scene (Some (frame r q (ndof r - 1))) None = true).
  { apply collision_points; auto; [apply frame_rigid; auto|exact Logic.I|eauto]. }
  assert (false = true); [|discriminate]. apply Hb. right. right. left. eauto.
Qed.
Lemma same_links_forall (P : link -> Prop) r r0 : (forall l l0, l_dh l = l_dh l0 -> l_jt l = l_jt l0 -> l_geom l = l_geom l0 -> P l0 -> P l) ->
  same_links r r0 -> Forall P (r_links r0) -> Forall P (r_links r).
Proof.
  intros HP H F. rewrite Forall_forall in *. intros l Il. apply In_nth_error in Il. destruct Il as [i E].
  destruct (same_links_nth r0 r i l (eq_sym H) E) as (l0 & E0 & A & B & C). apply (HP l l0); auto. apply F. eapply nth_error_In; eauto.
Qed.
Lemma same_links_joints r r0 : same_links r r0 -> joints_ok r0 -> joints_ok r.
Proof. intros H. apply same_links_forall; auto. intros l l0 _ -> _. auto. Qed.
Lemma same_links_rigid r r0 : same_links r r0 -> rigid_links r0 -> rigid_links r.
Proof. intros H. apply same_links_forall; auto. intros l l0 _ _ ->. auto. Qed.
Lemma coll1_rigid s T : rigid T -> rigid_coll (coll1 s T). Proof. repeat constructor; apply H. Qed.
Ltac geoms := cbn [KukaG KukaOnRailG AnthropomorphicArmG set_geom set_links r_links Kuka KukaOnRail AnthropomorphicArm robot_init kuka_geom rail_geom anthro_geom map combine fst snd l_dh l_jt l_T lr lp new_link l_geom].
Lemma kuka_rigid a1 a2 d4 d6 : rigid_links (KukaG a1 a2 d4 d6) /\ joints_ok (KukaG a1 a2 d4 d6).
Proof.
  split; [unfold rigid_links|unfold joints_ok]; geoms; repeat constructor; cbn [l_jt]; try discriminate; apply pose_x_rigid.
Qed.
Lemma rail_rigid a1 a2 d4 d6 : rigid_links (KukaOnRailG a1 a2 d4 d6) /\ joints_ok (KukaOnRailG a1 a2 d4 d6).
Proof.
  split; [unfold rigid_links|unfold joints_ok]; geoms; repeat constructor; cbn [l_jt]; try discriminate; apply pose_x_rigid.
Qed.
(** the answer is true when the scene meets a link *)
Lemma hit_in_links prim r q scene x : exact_prim prim -> good r -> joints_ok r -> (ndof r <= length q)%nat -> (r_tool r <> None -> (1 <= ndof r)%nat) ->
  rigid (r_tfb r) -> rigid_links r -> rigid_coll scene -> in_links r q x -> in_coll scene None x -> snd (robot_collision prim r q scene) = Ok true.
Proof.
  intros X G J L T B RL S K Hs. destruct (collision_correct prim r q scene G J L T) as (b & E & _). destruct b; auto. exfalso. eapply (free_in_links prim); eauto.
Qed.
Lemma kuka_skeleton_hit prim r q scene x : exact_prim prim -> good r -> same_links r (KukaG 0.18 0.6 0.62 0.115) -> rigid (r_tfb r) -> (6 <= length q)%nat -> rigid_coll scene ->
  on_skeleton r q 0 x -> in_coll scene None x -> snd (robot_collision prim r q scene) = Ok true.
Proof.
  intros X G H B L S K Hs. assert (N : ndof r = 6%nat) by (rewrite (same_links_ndof _ _ H); reflexivity). destruct (kuka_rigid 0.18 0.6 0.62 0.115) as [RL J].
  eapply hit_in_links; eauto; try lia; [eapply same_links_joints; eauto|eapply same_links_rigid; eauto|apply kuka_covered; auto].
Qed.
Lemma rail_skeleton_hit prim r q scene x : exact_prim prim -> good r -> same_links r (KukaOnRailG 0.18 0.6 0.62 0.115) -> rigid (r_tfb r) -> (7 <= length q)%nat -> rigid_coll scene ->
  on_skeleton r q 1 x -> in_coll scene None x -> snd (robot_collision prim r q scene) = Ok true.
Proof.
  intros X G H B L S K Hs. assert (N : ndof r = 7%nat) by (rewrite (same_links_ndof _ _ H); reflexivity). destruct (rail_rigid 0.18 0.6 0.62 0.115) as [RL J].
  eapply hit_in_links; eauto; try lia; [eapply same_links_joints; eauto|eapply same_links_rigid; eauto|apply rail_covered; auto].
Qed.
Lemma anthro_rigid a2 a3 : rigid_links (AnthropomorphicArmG a2 a3) /\ joints_ok (AnthropomorphicArmG a2 a3).
Proof. split; [unfold rigid_links|unfold joints_ok]; geoms; repeat constructor; cbn [l_jt]; try discriminate; apply translation_rigid. Qed.
Lemma anthro_skeleton_hit prim a2 a3 r q scene x : exact_prim prim -> 0 <= a2 -> 0 <= a3 -> good r -> same_links r (AnthropomorphicArmG a2 a3) -> rigid (r_tfb r) -> (3 <= length q)%nat -> rigid_coll scene ->
  on_skeleton r q 0 x -> in_coll scene None x -> snd (robot_collision prim r q scene) = Ok true.
Proof.
  intros X P2 P3 G H B L S K Hs. assert (N : ndof r = 3%nat) by (rewrite (same_links_ndof _ _ H); reflexivity). destruct (anthro_rigid a2 a3) as [RL J].
  eapply hit_in_links; eauto; try lia; [eapply same_links_joints; eauto|eapply same_links_rigid; eauto|apply (anthro_covered a2 a3); auto].
Qed.
Lemma in_coll_None s T x : in_coll (coll1 s T) None x <-> in_box s T x.
Proof.
  split; [intros (s' & T' & (i & Es & ET) & B); destruct i as [|i]; [|destruct i; discriminate]; cbn in Es, ET; injection Es as <-; injection ET as <-; exact B|].
  intros B. exists s, T. split; [exists 0%nat; split; reflexivity|exact B].
Qed.
Lemma set_geom_good r gs : good r -> (length (r_links r) <= length gs)%nat -> good (set_geom r gs).
Proof.
  intros [C P] L. unfold set_geom. split.
  - cbn [set_links r_links]. rewrite Forall_forall in *. intros l Il. apply in_map_iff in Il. destruct Il as ([l0 g] & <- & I). apply in_combine_l in I. apply (C l0 I).
  - unfold ndof in *. cbn [set_links r_links r_prio]. rewrite map_length, combine_length, Nat.min_l by auto. exact P.
Qed.
Lemma mid_rotation : rotation mid. Proof. split; vring. Qed.
Lemma eye4_rigid : rigid eye4. Proof. split; [apply mid_rotation|reflexivity|reflexivity]. Qed.
Lemma planar_rigid a1 a2 a3 : rigid_links (PlanarArmG a1 a2 a3) /\ joints_ok (PlanarArmG a1 a2 a3) /\ good (PlanarArmG a1 a2 a3).
Proof.
  split; [|split]; [unfold rigid_links|unfold joints_ok|apply set_geom_good; [apply robot_init_good; repeat constructor|cbn; lia]].
  - cbn [PlanarArmG set_geom set_links r_links PlanarArm robot_init planar_geom map combine fst snd l_dh l_jt l_T lr lp new_link l_geom]. repeat (apply Forall_cons; [apply coll1_rigid, eye4_rigid|]). apply Forall_nil.
  - cbn [PlanarArmG set_geom set_links r_links PlanarArm robot_init planar_geom map combine fst snd l_dh l_jt l_T lr lp new_link l_geom]. repeat constructor; cbn; discriminate.
Qed.
(** a planar arm never reports a collision with an obstacle *)
Lemma planar_blind prim a1 a2 a3 q scene : exact_prim prim -> 0 < a1 -> 0 < a2 -> 0 < a3 -> (3 <= length q)%nat -> rigid_coll scene ->
  snd (robot_collision prim (PlanarArmG a1 a2 a3) q scene) = Ok false.
Proof.
  intros X P1 P2 P3 L S. destruct (planar_rigid a1 a2 a3) as (RL & J & G). assert (N : ndof (PlanarArmG a1 a2 a3) = 3%nat) by reflexivity.
  assert (T0 : r_tool (PlanarArmG a1 a2 a3) <> None -> (1 <= ndof (PlanarArmG a1 a2 a3))%nat) by (intros; lia).
  destruct (collision_correct prim (PlanarArmG a1 a2 a3) q scene G J ltac:(lia) T0) as (b & E & Hb). rewrite E. destruct b; auto. exfalso.
  assert (RB : rigid (r_tfb (PlanarArmG a1 a2 a3))) by apply eye4_rigid. destruct (proj1 Hb eq_refl) as [H|[H|[H|H]]].
  - destruct H as (g & Eg & _). discriminate.
  - destruct H as (i & l & El & C). apply collision_points in C; auto; [|unfold rigid_links in RL; rewrite Forall_forall in RL; apply RL; eapply nth_error_In; eauto|apply frame_rigid; auto|exact Logic.I].
    destruct C as (x & Cx & _). apply (planar_nothing a1 a2 a3 (PlanarArmG a1 a2 a3) q x); auto; [apply same_links_refl|]. exists i, l. auto.
  - destruct H as (tool & tip & Et & _). discriminate.
  - destruct H as (_ & [(i & j & li & lj & Ei & Ej & M & _)|(tool & tip & i & l & Et & _)]); [|discriminate].
    assert (i < 3 /\ j < 3)%nat by (split; [assert (i < ndof (PlanarArmG a1 a2 a3))%nat by (apply nth_error_Some; congruence)|assert (j < ndof (PlanarArmG a1 a2 a3))%nat by (apply nth_error_Some; congruence)]; lia).
    change (r_mat (PlanarArmG a1 a2 a3)) with (r_mat (robot_init [])) in M. apply band_spec in M. lia.
Qed.

(** ** C103 *)
Lemma tf_at_rigid A p : rotation A -> rigid (tf_at A p). Proof. intros H. split; cbn; auto. Qed.
Lemma tf_rotate_rigid : rigid tf_rotate. Proof. apply tf_at_rigid, rot_z_rotation. Qed.
Lemma tf_tool_rigid : rigid tf_tool. Proof. apply tf_at_rigid, rotation_mmul; [apply rot_y_rotation|apply rot_x_rotation]. Qed.
Lemma torch_rigid : rigid_coll (fst torch) /\ rigid tool_tip.
Proof.
  pose proof tf_rotate_rigid. pose proof tf_tool_rigid. pose proof mid_rotation. pose proof (rot_z_rotation angle2). split.
  - unfold torch, torch_tfs, rigid_coll. cbn [fst c_tf map]. repeat apply Forall_cons; try apply Forall_nil; repeat first [assumption|apply rigid_tmul|apply tf_at_rigid].
  - unfold tool_tip. cbv zeta. apply rigid_tmul; auto. set (T := tmul tf_rotate _). assert (R : rigid T) by (apply rigid_tmul; auto; apply tf_at_rigid; auto). destruct R as [A B C]. split; cbn; auto. apply rotation_mmul; auto. apply rot_y_rotation.
Qed.
(** the last box: the wire, along its x axis *)
Definition wire : mat4 := tmul tf_tool (tmul tf_rotate (tf_at (rot_z angle2) (pos_data 4))).
Lemma torch_wire : nth_error torch_tfs 4 = Some wire. Proof. reflexivity. Qed.
Lemma wire_rigid : rigid wire.
Proof. apply rigid_tmul; [apply tf_tool_rigid|]. apply rigid_tmul; [apply tf_rotate_rigid|]. apply tf_at_rigid, rot_z_rotation. Qed.
Definition tip_local : mat4 := M4 (rot_y (PI / 2)) (V3 (0.05 + 0.01) 0 0) v0 1.
Lemma vadd_comm u v : vadd u v = vadd v u. Proof. vring. Qed.
Lemma block_last T A p : rigid T -> tmul T (M4 A p v0 1) = M4 (mmul (rot T) A) (vadd (mapply (rot T) p) (pos T)) v0 1.
Proof. intros [_ Hb Hw]. destruct T as [RT PT BT WT]. cbn in Hb, Hw. subst. vring. Qed.
Lemma tip_form : tool_tip = tmul wire tip_local.
Proof.
  unfold tool_tip, wire, tip_local. cbv zeta. rewrite !tmul_assoc. f_equal.
  set (A := rot_z angle2). set (P := pos_data 4). set (B := rot_y (PI / 2)). set (u := V3 (0.05 + 0.01) 0 0).
  rewrite (block_last (tf_at A P) B u) by apply tf_at_rigid, rot_z_rotation. unfold tf_at. rewrite !block_last by apply tf_rotate_rigid. cbn [rot pos brow bww].
  f_equal; [apply mmul_assoc|]. f_equal. f_equal. apply vadd_comm.
Qed.
Lemma tip_axis : col2 (rot tool_tip) = col0 (rot wire).
Proof.
  rewrite tip_form. unfold tip_local. rewrite block_last by apply wire_rigid. cbn [rot]. unfold rot_y. rewrite cos_PI2, sin_PI2. destruct (rot wire) as [a b c d e f g h i]. unfold col2, col0, mmul. cbn [m00 m01 m02 m10 m11 m12 m20 m21 m22]. apply vec3_eq; cbn [vx vy vz]; ring.
Qed.
Lemma tip_pos : pos tool_tip = tapply wire (V3 0.06 0 0).
Proof. rewrite tip_form. unfold tip_local. rewrite block_last by apply wire_rigid. cbn [pos]. replace (0.05 + 0.01) with 0.06 by lra. reflexivity. Qed.
(** the tip is outside every box of the torch *)
Lemma cos_a2 : 0 <= cos angle2.
Proof. apply cos_ge_0; unfold angle2; pose proof PI_RGT_0; lra. Qed.
Lemma sin_a2 : -1 <= sin angle2 <= 0.
Proof. split; [apply SIN_bound|]. assert (0 <= sin (- angle2)) by (apply sin_ge_0; unfold angle2; pose proof PI_RGT_0; lra). rewrite sin_neg in H. lra. Qed.
Lemma cos_a1 : / 2 <= cos angle1.
Proof. replace (/ 2) with (cos (PI / 3)) by (rewrite cos_PI3; lra). apply cos_decr_1; unfold angle1; pose proof PI_RGT_0; lra. Qed.
Lemma sin_a1 : 0 <= sin angle1 <= 0.26.
Proof.
  pose proof PI_RGT_0. pose proof PI_4. split; [apply sin_ge_0; unfold angle1; lra|]. assert (sin angle1 < angle1) by (apply sin_lt_x; unfold angle1; lra). unfold angle1 in *. lra.
Qed.
(** boxes given in the frame M that is applied to all of them *)
Lemma in_box_common M s T x : rigid M -> rigid T -> in_box s (tmul M T) (tapply M x) -> in_box s T x.
Proof. intros HM HT. apply in_box_move; auto. Qed.
Lemma tip_outside : ~ in_coll (fst torch) None (pos tool_tip).
Proof.
  pose proof cos_a2. pose proof sin_a2. pose proof cos_a1. pose proof sin_a1. pose proof tf_rotate_rigid. pose proof tf_tool_rigid. pose proof mid_rotation. pose proof (rot_z_rotation angle2).
  set (P := vadd (mapply (rot_z angle2) (V3 0.06 0 0)) (pos_data 4)).
  assert (EP : P = V3 (cos angle2 * 0.06 + 0.25) (sin angle2 * 0.06 + (0.15 + sin angle2 * 0.05)) 0).
  { unfold P, pos_data, rot_z. munf. apply vec3_eq; cbn [vx vy vz]; ring. }
  assert (E1 : pos tool_tip = tapply (tmul tf_tool tf_rotate) P).
  { rewrite tip_pos. unfold wire. rewrite <- tmul_assoc, tapply_tmul by (try apply rigid_tmul; auto; apply tf_at_rigid; auto). f_equal. }
  intros (s & T & (i & Es & ET) & B). cbn [place] in B. rewrite E1 in B. unfold torch in Es, ET. cbn [fst c_s c_tf] in Es, ET. unfold torch_shapes, torch_tfs in *. cbn [map] in ET. unfold pos_data in ET.
  rewrite EP in B. clear E1 EP P.
  destruct i as [|[|[|[|[|i]]]]]; [| | | | |destruct i; discriminate]; cbn [nth_error] in Es, ET; injection Es as <-; injection ET as <-.
  - rewrite tapply_tmul in B by auto. apply in_box_common in B; auto; [|apply tf_at_rigid; auto]. destruct B as (l & [Hx _] & E). apply (f_equal vx) in E.
    apply Rabs_le_inv' in Hx. cbn [dx] in Hx. unfold tf_rotate, tf_at, tapply, rot_z, mid, mapply, vadd, v0 in E. cbn [rot pos vx vy vz m00 m01 m02 m10 m11 m12 m20 m21 m22] in E. destruct l as [lx ly lz]. cbn [vx vy vz] in *.
    assert (K1 : / 2 * 0.25 <= cos angle1 * (cos angle2 * 0.06 + 0.25)) by (apply Rmult_le_compat; lra).
    assert (K2 : sin angle1 * (sin angle2 * 0.06 + (0.15 + sin angle2 * 0.05)) <= sin angle1 * 0.15) by (apply Rmult_le_compat_l; lra).
    lra.
  - rewrite <- tmul_assoc in B. apply in_box_common in B; [|apply rigid_tmul; auto|apply tf_at_rigid; auto]. destruct B as (l & [Hx _] & E). apply (f_equal vx) in E.
    apply Rabs_le_inv' in Hx. cbn [dx] in Hx. unfold tf_at, tapply, mid, mapply, vadd in E. cbn [rot pos vx vy vz m00 m01 m02] in E. nra.
  - rewrite <- tmul_assoc in B. apply in_box_common in B; [|apply rigid_tmul; auto|apply tf_at_rigid; auto]. destruct B as (l & [Hx _] & E). apply (f_equal vx) in E.
    apply Rabs_le_inv' in Hx. cbn [dx] in Hx. unfold tf_at, tapply, mid, mapply, vadd in E. cbn [rot pos vx vy vz m00 m01 m02] in E. nra.
  - rewrite <- tmul_assoc in B. apply in_box_common in B; [|apply rigid_tmul; auto|apply tf_at_rigid; auto]. destruct B as (l & [Hx _] & E). apply (f_equal vx) in E.
    apply Rabs_le_inv' in Hx. cbn [dx] in Hx. unfold tf_at, tapply, mid, mapply, vadd in E. cbn [rot pos vx vy vz m00 m01 m02] in E. nra.
  - rewrite <- tmul_assoc in B. apply in_box_common in B; [|apply rigid_tmul; auto|apply tf_at_rigid; auto]. destruct B as (l & [Hx _] & E).
    apply Rabs_le_inv' in Hx. cbn [dx] in Hx. pose proof (f_equal vx E) as Ex. pose proof (f_equal vy E) as Ey. clear E. unfold tf_at, tapply, rot_z, mapply, vadd in Ex, Ey. cbn [rot pos vx vy vz m00 m01 m02 m10 m11 m12] in Ex, Ey.
    pose proof (sin2_cos2 angle2) as S. unfold Rsqr in S. set (c := cos angle2) in *. set (d := sin angle2) in *.
    assert (K : vx l = 0.06). { replace (vx l) with ((d * d + c * c) * vx l) by (rewrite S; ring). replace 0.06 with ((d * d + c * c) * 0.06) by (rewrite S; ring).
      assert (A1 : c * (c * vx l - d * vy l - c * 0.06) = 0) by (replace (c * vx l - d * vy l - c * 0.06) with 0 by lra; ring).
      assert (A2 : d * (d * vx l + c * vy l - d * 0.06) = 0) by (replace (d * vx l + c * vy l - d * 0.06) with 0 by lra; ring). lra. }
    lra.
Qed.

(** ** Points and distances *)
Lemma far_x u v d : 0 <= d -> d <= Rabs (vx u - vx v) -> d ^ 2 <= norm2 (vsub u v).
Proof. intros P H. unfold norm2, vdot, vsub. cbn [vx vy vz]. assert (d ^ 2 <= (vx u - vx v) ^ 2) by (rewrite <- (pow2_abs (vx u - vx v)); apply pow_incr; lra). pose proof (pow2_ge_0 (vy u - vy v)). pose proof (pow2_ge_0 (vz u - vz v)). lra. Qed.
Lemma far_y u v d : 0 <= d -> d <= Rabs (vy u - vy v) -> d ^ 2 <= norm2 (vsub u v).
Proof. intros P H. unfold norm2, vdot, vsub. cbn [vx vy vz]. assert (d ^ 2 <= (vy u - vy v) ^ 2) by (rewrite <- (pow2_abs (vy u - vy v)); apply pow_incr; lra). pose proof (pow2_ge_0 (vx u - vx v)). pose proof (pow2_ge_0 (vz u - vz v)). lra. Qed.
Lemma far_z u v d : 0 <= d -> d <= Rabs (vz u - vz v) -> d ^ 2 <= norm2 (vsub u v).
Proof. intros P H. unfold norm2, vdot, vsub. cbn [vx vy vz]. assert (d ^ 2 <= (vz u - vz v) ^ 2) by (rewrite <- (pow2_abs (vz u - vz v)); apply pow_incr; lra). pose proof (pow2_ge_0 (vx u - vx v)). pose proof (pow2_ge_0 (vy u - vy v)). lra. Qed.
Lemma le_Rabs d x : d <= x \/ x <= - d -> d <= Rabs x.
Proof. pose proof (Rle_abs x). pose proof (Rle_abs (- x)). rewrite Rabs_Ropp in *. lra. Qed.
(** a box whose transform only shifts *)
Lemma shifted_box s T x y z p : T = M4 mid (V3 x y z) v0 1 -> in_box s T p ->
  x - dx s / 2 <= vx p <= x + dx s / 2 /\ y - dy s / 2 <= vy p <= y + dy s / 2 /\ z - dz s / 2 <= vz p <= z + dz s / 2.
Proof.
  intros -> (l & (Hx & Hy & Hz) & ->). apply Rabs_le_inv' in Hx, Hy, Hz. destruct l as [lx ly lz]. unfold tapply, mapply, mid, vadd. cbn [rot pos vx vy vz m00 m01 m02 m10 m11 m12 m20 m21 m22] in *. lra.
Qed.
Lemma pose_x_0 x y z : pose_x 0 x y z = M4 mid (V3 x y z) v0 1.
Proof. unfold pose_x. rewrite cos_0, sin_0. f_equal. unfold mid. f_equal; ring. Qed.

(** ** C104 *)
(** parameter of point k of N *)
Definition par (N k : nat) : R := INR k / INR (N - 1).
Lemma par_range N k : (k < N)%nat -> 0 <= par N k <= 1.
Proof.
  intros H. unfold par. destruct (Nat.eq_dec N 1) as [->|]. { replace k with 0%nat by lia. cbn. unfold Rdiv. rewrite Rmult_0_l. lra. }
  assert (0 < INR (N - 1)) by (apply lt_0_INR; lia). assert (INR k <= INR (N - 1)) by (apply le_INR; lia). pose proof (pos_INR k). split.
  - apply Rmult_le_pos; auto. apply Rlt_le, Rinv_0_lt_compat; auto.
  - apply Rmult_le_reg_r with (INR (N - 1)); auto. unfold Rdiv. rewrite Rmult_assoc, Rinv_l; lra.
Qed.
Lemma linspace01 N k x : nth_error (linspace 0 1 N) k = Some x -> (k < N)%nat /\ x = par N k.
Proof.
  intros E. assert (K : (k < N)%nat) by (rewrite <- (linspace_length 0 1 N); apply nth_error_Some; congruence). split; auto. unfold par.
  destruct (Nat.leb_spec 2 N). { rewrite linspace_nth in E by auto. injection E as <-. ring. }
  assert (k = 0%nat) by lia. subst. rewrite linspace_first in E by lia. injection E as <-. cbn. unfold Rdiv. ring.
Qed.
Definition seam (ps pg : vec3) (t : R) : vec3 := vadd (vscale (1 - t) ps) (vscale t pg).
Definition weld_pt_ok (ps pg off : vec3) (r0 r1 r2 t : R) (p : eulerpt) : Prop :=
  nominal_transform p = Ok (M4 (rot_xyz r0 r1 r2) (vadd (seam ps pg t) off) v0 1) /\
  exists l, euler_samples p = Ok l /\ length l = 30%nat /\
  forall T, In T l -> rigid T /\ pos T = vadd (seam ps pg t) off /\
    exists a c, r0 - 0.5 <= a <= r0 + 0.5 /\ r2 - PI <= c <= r2 + PI /\ rot T = rot_xyz a r1 c.
Lemma weld_point_ok ps pg r0 r1 r2 off t : exists p, weld_point ps pg r0 r1 r2 off t = Ok p /\ weld_pt_ok ps pg off r0 r1 r2 t p.
Proof.
  unfold weld_point, new_tol. cbn [bind]. fold (seam ps pg t). set (v := vadd (seam ps pg t) off).
  set (t1 := TN (r0 - 0.5) (r0 + 0.5) _ 3). set (t2 := TN (r2 - PI) (r2 + PI) _ 10). pose proof PI_RGT_0 as PP.
  destruct (proj2 (new_eulerpt_Ok [Fix (vx v); Fix (vy v); Fix (vz v)] [Tol t1; Fix r1; Tol t2])) as [p Ep]; [cbn; lia|]. exists p. split; auto.
  assert (Ev : V3 (vx v) (vy v) (vz v) = v) by (destruct v; reflexivity). split.
  - rewrite (proj1 (euler_nominal _ _ _ _ _ _ _ _ _ Ep)). unfold frame6, t1, t2. cbn [nominal_of t_nominal]. rewrite Ev.
    replace (r0 - 0.5 + (r0 + 0.5 - (r0 - 0.5)) / 2) with r0 by lra. replace (r2 - PI + (r2 + PI - (r2 - PI)) / 2) with r2 by lra. reflexivity.
  - destruct (euler_spec _ _ _ _ _ _ _ _ _ Ep) as (l & El & Ll & _); [repeat constructor; cbn; lia|].
    destruct (euler_within _ _ _ _ _ _ _ _ _ Ep) as (l' & El' & Hl); [repeat constructor; cbn; try lia; lra|].
    rewrite El in El'. injection El' as <-. exists l. split; auto. split; [exact Ll|]. intros T IT. destruct (Hl T IT) as (RT & x & y & z & a & b & c & F & ->). split; auto.
    apply Forall2_6 in F. destruct F as (x' & y' & z' & a' & b' & c' & Eq & F1 & F2 & F3 & F4 & F5 & F6). injection Eq as <- <- <- <- <- <-. cbn in F1, F2, F3, F4, F5, F6. subst. cbn [frame6 pos rot]. split; [exact Ev|]. exists a, c. auto.
Qed.
Lemma weld_line_ok ps pg r0 r1 r2 off N : exists l, create_weld_line ps pg r0 r1 r2 off N = Ok l /\ length l = N /\
  forall k p, nth_error l k = Some p -> weld_pt_ok ps pg off r0 r1 r2 (par N k) p.
Proof.
  unfold create_weld_line. destruct (mapM_ex (weld_point ps pg r0 r1 r2 off) (fun t p => weld_pt_ok ps pg off r0 r1 r2 t p) (linspace 0 1 N)) as (l & E & F).
  { intros t _. apply weld_point_ok. }
  exists l. split; auto. split; [rewrite <- (Forall2_length F); apply linspace_length|]. intros k p Ek. destruct (Forall2_nth_r _ _ _ _ _ F Ek) as (t & Et & H). apply linspace01 in Et. destruct Et as [_ ->]. auto.
Qed.
(** the boxes of the workpiece *)
Lemma in_workpiece y : in_coll workpiece None y ->
  vz y <= 0.01 \/ 1.01 <= vz y \/ 0.39 <= vy y \/ 0.79 <= vx y \/ vx y <= -0.79.
Proof.
  intros (s & T & (i & Es & ET) & B). cbn [place] in B. unfold workpiece in Es, ET. cbv zeta in Es, ET. cbn [c_s c_tf] in Es, ET. rewrite !pose_x_0 in ET.
  destruct i as [|[|[|[|[|i]]]]]; [| | | | |destruct i; discriminate]; cbn [nth_error] in Es, ET; injection Es as <-; injection ET as <-; apply (shifted_box _ _ _ _ _ _ eq_refl) in B; cbn [dx dy dz] in B; unfold wp_h, wp_w, wp_l, wp_t in B; lra.
Qed.
(** samples of the three weld paths, for all their lengths *)
Definition sample_of (path : nat -> res (list eulerpt)) (N : nat) (T : mat4) : Prop :=
  exists l p ss, path N = Ok l /\ In p l /\ euler_samples p = Ok ss /\ In T ss.
Lemma sample_of_line ps pg r0 r1 r2 off N T : sample_of (create_weld_line ps pg r0 r1 r2 off) N T ->
  rigid T /\ exists k a c, (k < N)%nat /\ pos T = vadd (seam ps pg (par N k)) off /\ r0 - 0.5 <= a <= r0 + 0.5 /\ rot T = rot_xyz a r1 c.
Proof.
  intros (l & p & ss & E & Ip & Es & IT). destruct (weld_line_ok ps pg r0 r1 r2 off N) as (l' & E' & L & H). rewrite E in E'. injection E' as <-.
  apply In_nth_error in Ip. destruct Ip as [k Ek]. destruct (H k p Ek) as (_ & ss' & Es' & _ & HT). rewrite Es in Es'. injection Es' as <-. destruct (HT T IT) as (RT & EP & a & c & Ha & _ & ER).
  split; auto. exists k, a, c. split; [rewrite <- L; apply nth_error_Some; congruence|]. auto.
Qed.
Definition clear_by (d : R) (c : coll) (x : vec3) : Prop := forall y, in_coll c None y -> d ^ 2 <= norm2 (vsub x y).
Lemma weld_path1_clear N T : sample_of weld_path1 N T -> clear_by 0.04 workpiece (pos T).
Proof.
  intros H y Y. apply sample_of_line in H. destruct H as (_ & k & a & c & K & EP & _). apply par_range in K. set (t := par N k) in *. rewrite EP. apply in_workpiece in Y.
  unfold seam, vadd, vscale, wp_l, wp_t, wp_w, marge. cbn [vx vy vz].
  destruct Y as [Y|[Y|[Y|[Y|Y]]]]; [apply far_z|apply far_z|apply far_y|apply far_x|apply far_x]; cbn [vx vy vz]; try lra; apply le_Rabs; lra.
Qed.
Lemma weld_path2_clear N T : sample_of weld_path2 N T -> clear_by 0.04 workpiece (pos T).
Proof.
  intros H y Y. apply sample_of_line in H. destruct H as (_ & k & a & c & K & EP & _). apply par_range in K. set (t := par N k) in *. rewrite EP. apply in_workpiece in Y.
  unfold seam, vadd, vscale, wp_l, wp_t, wp_w, marge. cbn [vx vy vz].
  destruct Y as [Y|[Y|[Y|[Y|Y]]]]; [apply far_z|apply far_z|apply far_y|apply far_x|apply far_x]; cbn [vx vy vz]; try lra; apply le_Rabs; lra.
Qed.
Lemma weld_path3_clear N T : sample_of weld_path3 N T -> clear_by 0.04 workpiece (pos T).
Proof.
  intros H y Y. apply sample_of_line in H. destruct H as (_ & k & a & c & K & EP & _). apply par_range in K. set (t := par N k) in *. rewrite EP. apply in_workpiece in Y.
  unfold seam, vadd, vscale, wp_l, wp_t, wp_w, marge. cbn [vx vy vz].
  destruct Y as [Y|[Y|[Y|[Y|Y]]]]; [apply far_z|apply far_z|apply far_y|apply far_x|apply far_x]; cbn [vx vy vz]; try lra; apply le_Rabs; lra.
Qed.
(** the tool axis of a sample *)
Lemma rot_xyz_col2 a b c : col2 (rot_xyz a b c) = V3 (sin b) (- sin a * cos b) (cos a * cos b).
Proof. unfold rot_xyz, rot_x, rot_y, rot_z. munf. apply vec3_eq; cbn [vx vy vz]; ring. Qed.
Lemma cos_3PI4 : cos (3 * PI / 4) = - / sqrt 2 /\ sin (3 * PI / 4) = / sqrt 2.
Proof.
  replace (3 * PI / 4) with (PI - PI / 4) by lra. rewrite sin_PI_x. rewrite cos_minus, cos_PI, sin_PI, cos_PI4, sin_PI4. unfold Rdiv. split; ring.
Qed.
Lemma sqrt2_pos : 0 < / sqrt 2. Proof. apply Rinv_0_lt_compat, sqrt_lt_R0. lra. Qed.
Lemma sin_m3PI4 : cos (-3 * PI / 4) = - / sqrt 2 /\ sin (-3 * PI / 4) = - / sqrt 2.
Proof. replace (-3 * PI / 4) with (- (3 * PI / 4)) by lra. rewrite cos_neg, sin_neg. destruct cos_3PI4 as [-> ->]. auto. Qed.
Lemma third_quadrant a : -3 * PI / 4 - 0.5 <= a <= -3 * PI / 4 + 0.5 -> sin a < 0 /\ cos a < 0.
Proof.
  intros H. pose proof PI_RGT_0. assert (2 < PI) by (pose proof PI2_1; lra). assert (3 <= PI) by (pose proof PI2_3_2; lra).
  replace a with (- (- a)) by ring. rewrite sin_neg, cos_neg. split; [apply Ropp_lt_gt_0_contravar; apply sin_gt_0; lra|]. apply cos_lt_0; lra.
Qed.
Lemma near_zero a : 0 - 0.5 <= a <= 0 + 0.5 -> 0 < cos a.
Proof. intros H. assert (2 < PI) by (pose proof PI2_1; lra). apply cos_gt_0; lra. Qed.
(** the axis of every sample points into the corner of its seam *)
Lemma weld_path1_into N T : sample_of weld_path1 N T -> vx (col2 (rot T)) = 0 /\ 0 < vy (col2 (rot T)) /\ vz (col2 (rot T)) < 0.
Proof.
  intros H. apply sample_of_line in H. destruct H as (_ & k & a & c & _ & _ & Ha & ->). rewrite rot_xyz_col2, sin_0, cos_0. cbn [vx vy vz]. apply third_quadrant in Ha. lra.
Qed.
Lemma weld_path2_into N T : sample_of weld_path2 N T -> vx (col2 (rot T)) < 0 /\ vz (col2 (rot T)) < 0.
Proof.
  intros H. apply sample_of_line in H. destruct H as (_ & k & a & c & _ & _ & Ha & ->). rewrite rot_xyz_col2. destruct sin_m3PI4 as [-> ->]. cbn [vx vy vz]. apply near_zero in Ha. pose proof sqrt2_pos. split; nra.
Qed.
Lemma weld_path3_into N T : sample_of weld_path3 N T -> 0 < vx (col2 (rot T)) /\ vz (col2 (rot T)) < 0.
Proof.
  intros H. apply sample_of_line in H. destruct H as (_ & k & a & c & _ & _ & Ha & ->). rewrite rot_xyz_col2. destruct cos_3PI4 as [-> ->]. cbn [vx vy vz]. apply near_zero in Ha. pose proof sqrt2_pos. split; nra.
Qed.
(** the axis of the nominal frame goes exactly through the seam point *)
Definition aims_at (T : mat4) (x : vec3) : Prop := exists s, 0 < s /\ vadd (pos T) (vscale s (col2 (rot T))) = x.
Lemma sqrt2_inv : sqrt 2 * / sqrt 2 = 1. Proof. apply Rinv_r. pose proof (sqrt_lt_R0 2). lra. Qed.
Lemma aims a b c P off : off = vscale (- (0.04 * sqrt 2)) (col2 (rot_xyz a b c)) -> aims_at (M4 (rot_xyz a b c) (vadd P off) v0 1) P.
Proof.
  intros E. exists (0.04 * sqrt 2). split; [pose proof (sqrt_lt_R0 2); lra|]. cbn [rot pos]. rewrite E. destruct P as [x y z]. destruct (col2 _) as [u v w]. unfold vadd, vscale. cbn [vx vy vz]. apply vec3_eq; cbn [vx vy vz]; ring.
Qed.
Definition nominal_aims (path : nat -> res (list eulerpt)) (N : nat) (ps pg : vec3) : Prop :=
  exists l, path N = Ok l /\ length l = N /\ forall k p, nth_error l k = Some p -> exists T, nominal_transform p = Ok T /\ aims_at T (seam ps pg (par N k)).
Lemma line_aims ps pg r0 r1 r2 off N : off = vscale (- (0.04 * sqrt 2)) (col2 (rot_xyz r0 r1 r2)) -> nominal_aims (create_weld_line ps pg r0 r1 r2 off) N ps pg.
Proof.
  intros E. destruct (weld_line_ok ps pg r0 r1 r2 off N) as (l & El & L & H). exists l. split; auto. split; auto. intros k p Ek. destruct (H k p Ek) as (En & _). eexists. split; [exact En|]. apply aims; auto.
Qed.
Lemma weld_path1_aims N : nominal_aims weld_path1 N (V3 (-0.69) 0.39 0.01) (V3 0.69 0.39 0.01).
Proof.
  replace (V3 (-0.69) 0.39 0.01) with (V3 (- wp_l / 2 + wp_t + marge) (wp_w / 2 - wp_t) wp_t) by (unfold wp_l, wp_t, wp_w, marge; f_equal; lra).
  replace (V3 0.69 0.39 0.01) with (V3 (wp_l / 2 - wp_t - marge) (wp_w / 2 - wp_t) wp_t) by (unfold wp_l, wp_t, wp_w, marge; f_equal; lra).
  apply line_aims. rewrite rot_xyz_col2, sin_0, cos_0. destruct sin_m3PI4 as [-> ->]. pose proof sqrt2_inv. unfold vscale. cbn [vx vy vz]. apply vec3_eq; cbn [vx vy vz]; nra.
Qed.
Lemma weld_path2_aims N : nominal_aims weld_path2 N (V3 (-0.79) (-0.3) 0.01) (V3 (-0.79) 0.29 0.01).
Proof.
  replace (V3 (-0.79) (-0.3) 0.01) with (V3 (- wp_l / 2 + wp_t) (- wp_w / 2 + marge) wp_t) by (unfold wp_l, wp_t, wp_w, marge; f_equal; lra).
  replace (V3 (-0.79) 0.29 0.01) with (V3 (- wp_l / 2 + wp_t) (wp_w / 2 - wp_t - marge) wp_t) by (unfold wp_l, wp_t, wp_w, marge; f_equal; lra).
  apply line_aims. rewrite rot_xyz_col2, sin_0, cos_0. destruct sin_m3PI4 as [-> ->]. pose proof sqrt2_inv. unfold vscale. cbn [vx vy vz]. apply vec3_eq; cbn [vx vy vz]; nra.
Qed.
Lemma weld_path3_aims N : nominal_aims weld_path3 N (V3 0.79 (-0.3) 0.01) (V3 0.79 (-0.11) 0.01).
Proof.
  replace (V3 0.79 (-0.3) 0.01) with (V3 (wp_l / 2 - wp_t) (- wp_w / 2 + marge) wp_t) by (unfold wp_l, wp_t, wp_w, marge; f_equal; lra).
  replace (V3 0.79 (-0.11) 0.01) with (V3 (wp_l / 2 - wp_t) (wp_w / 2 - wp_t - marge - 0.4) wp_t) by (unfold wp_l, wp_t, wp_w, marge; f_equal; lra).
  apply line_aims. rewrite rot_xyz_col2, sin_0, cos_0. destruct cos_3PI4 as [-> ->]. pose proof sqrt2_inv. unfold vscale. cbn [vx vy vz]. apply vec3_eq; cbn [vx vy vz]; nra.
Qed.

Lemma NoDup_app' {A} (l m : list A) : NoDup l -> NoDup m -> (forall x, In x l -> ~ In x m) -> NoDup (l ++ m).
Proof.
  induction 1 as [|a l Ha Hl IH]; intros Hm D; cbn [app]; auto. constructor; [|apply IH; auto; intros x Ix; apply D; right; auto].
  intros I. apply in_app_or in I. destruct I as [I|I]; [auto|]. apply (D a); [left; auto|auto].
Qed.
Lemma mapM_Forall2 {A B} (f : A -> res B) : forall l l', mapM f l = Ok l' -> Forall2 (fun x y => f x = Ok y) l l'.
Proof.
  induction l as [|a l IH]; intros l' E; cbn [mapM] in E; [injection E as <-; constructor|]. apply bind_Ok in E. destruct E as (b & Eb & E). apply bind_Ok in E. destruct E as (bs & Ebs & E). injection E as <-. constructor; auto.
Qed.
Lemma mapM_In_inv {A B} (f : A -> res B) l l' y : mapM f l = Ok l' -> In y l' -> exists x, In x l /\ f x = Ok y.
Proof. intros E I. apply mapM_Forall2 in E. eapply Forall2_In_r in E; eauto. Qed.
Lemma mapM_In {A B} (f : A -> res B) l l' x : mapM f l = Ok l' -> In x l -> exists y, f x = Ok y /\ In y l'.
Proof. intros E I. apply mapM_Forall2 in E. eapply Forall2_In_l in E; eauto. destruct E as (y & ? & ?). eauto. Qed.
Lemma mapM_length {A B} (f : A -> res B) l l' : mapM f l = Ok l' -> length l = length l'.
Proof. intros E. apply mapM_Forall2 in E. eapply Forall2_length; eauto. Qed.

(** ** C105 *)
Lemma cong_near a b : cong a b -> Rabs (a - b) < 2 * PI -> a = b.
Proof.
  intros [k ->] H. pose proof PI_RGT_0. replace (b + 2 * IZR k * PI - b) with (IZR k * (2 * PI)) in H by ring. rewrite Rabs_mult, (Rabs_right (2 * PI)) in H by lra. rewrite <- abs_IZR in H.
  assert (IZR (Z.abs k) < 1) by nra. apply lt_IZR in H1. replace k with 0%Z by lia. ring.
Qed.
Lemma rot_xyz_inj a b c a' b' c' : rot_xyz a b c = rot_xyz a' b' c' -> - (PI / 2) < b < PI / 2 -> - (PI / 2) < b' < PI / 2 -> cong a a' /\ b = b' /\ cong c c'.
Proof.
  intros E H H'. assert (Eb : sin b = sin b') by (apply (f_equal m02) in E; unfold rot_xyz, rot_x, rot_y, rot_z, mmul in E; cbn [m00 m01 m02 m10 m11 m12 m20 m21 m22] in E; lra).
  assert (b = b'). { rewrite <- (asin_sin b), <- (asin_sin b') by lra. congruence. } subst b'. pose proof (cos_gt_0 b (proj1 H) (proj2 H)) as C.
  unfold rot_xyz, rot_x, rot_y, rot_z, mmul in E. cbn [m00 m01 m02 m10 m11 m12 m20 m21 m22] in E.
  pose proof (f_equal m00 E) as E0. pose proof (f_equal m01 E) as E1. pose proof (f_equal m12 E) as E2. pose proof (f_equal m22 E) as E3. cbn [m00 m01 m12 m22] in E0, E1, E2, E3.
  split; [apply cong_intro; apply Rmult_eq_reg_l with (cos b); lra|]. split; [auto|]. apply cong_intro; apply Rmult_eq_reg_l with (cos b); lra.
Qed.
(** one coordinate with distinct grid values *)
Definition strict (v : num) : Prop := match v with Fix _ => True | Tol t => t_lower t < t_upper t /\ (0 <= t_samples t)%Z end.
Lemma strict_sampled v : strict v -> sampled v. Proof. destruct v; cbn; tauto. Qed.
Lemma linspace_NoDup lo hi n : lo < hi -> NoDup (linspace lo hi n).
Proof.
  intros H. apply NoDup_nth_error. intros i j Hi E. rewrite linspace_length in Hi. destruct (Nat.leb_spec 2 n); [|].
  - rewrite linspace_nth in E by auto. assert (j < n)%nat. { destruct (Nat.lt_ge_cases j n); auto. exfalso. assert (nth_error (linspace lo hi n) j = None) by (apply nth_error_None; rewrite linspace_length; auto). congruence. }
    rewrite linspace_nth in E by auto. injection E as E. assert (0 < INR (n - 1)) by (apply lt_0_INR; lia). apply INR_eq.
    assert (K : INR i / INR (n - 1) = INR j / INR (n - 1)) by (apply Rmult_eq_reg_r with (hi - lo); lra). unfold Rdiv in K. apply Rmult_eq_reg_r in K; auto. apply Rinv_neq_0_compat. lra.
  - assert (i = 0%nat) by lia. subst i. rewrite linspace_first in E by lia. destruct j; auto. exfalso. assert (nth_error (linspace lo hi n) (S j) = None) by (apply nth_error_None; rewrite linspace_length; lia). congruence.
Qed.
Lemma discretise_NoDup v l : strict v -> discretise_num v = Ok l -> NoDup l.
Proof.
  destruct v as [x|t]; cbn [strict discretise_num]; intros H E; [injection E as <-; repeat constructor; auto|]. unfold tol_discretise in E. destruct (Z.ltb_spec (t_samples t) 0); [discriminate|]. injection E as <-. apply linspace_NoDup; tauto.
Qed.
Lemma choices_NoDup {A} (r : list (list A)) : Forall (@NoDup A) r -> NoDup (choices r).
Proof.
  induction 1 as [|c r Hc Hr IH]; [repeat constructor; auto|]. cbn [choices]. induction Hc as [|x c Hx Hc IHc]; cbn [flat_map]; [constructor|].
  apply NoDup_app'; auto.
  - apply FinFun.Injective_map_NoDup; auto. intros u v E. congruence.
  - intros row I1 I2. apply in_map_iff in I1. destruct I1 as (u & <- & _). apply in_flat_map in I2. destruct I2 as (y & Iy & I2). apply in_map_iff in I2. destruct I2 as (w & E & _). injection E as -> _. auto.
Qed.
Lemma mapM_NoDup {A B} (f : A -> res B) l l' : NoDup l -> mapM f l = Ok l' -> (forall x y z, In x l -> In y l -> f x = Ok z -> f y = Ok z -> x = y) -> NoDup l'.
Proof.
  intros H. revert l'. induction H as [|a l Ha Hl IH]; intros l' E K; cbn [mapM] in E; [injection E as <-; constructor|].
  apply bind_Ok in E. destruct E as (b & Eb & E). apply bind_Ok in E. destruct E as (bs & Ebs & E). injection E as <-. constructor.
  - intros I. apply (mapM_In_inv f l bs b Ebs) in I. destruct I as (x & Ix & Ex). apply Ha. replace a with x; auto. eapply K; eauto; [right|left]; auto.
  - apply IH; auto. intros x y z Ix Iy. apply K; right; auto.
Qed.
(** widths of the bands that keep the frames apart *)
Definition narrow (v : num) : Prop := match v with Fix _ => True | Tol t => t_upper t - t_lower t < 2 * PI end.
Definition open_pitch (v : num) : Prop := forall x, within v x -> - (PI / 2) < x < PI / 2.
Lemma narrow_near v x y : narrow v -> within v x -> within v y -> Rabs (x - y) < 2 * PI.
Proof. pose proof PI_RGT_0. destruct v as [z|t]; cbn; intros N X Y; [subst; replace (z - z) with 0 by ring; rewrite Rabs_R0; lra|]. apply Rabs_def1; lra. Qed.
Lemma euler_distinct p1 p2 p3 a1 a2 a3 pr ar p l : new_eulerpt (p1 :: p2 :: p3 :: pr) (a1 :: a2 :: a3 :: ar) = Ok p -> Forall strict [p1; p2; p3; a1; a2; a3] ->
  narrow a1 -> open_pitch a2 -> narrow a3 -> euler_samples p = Ok l -> NoDup l.
Proof.
  intros Hp S N1 O2 N3 E. destruct (euler_fields _ _ _ _ _ _ _ _ _ Hp) as (E1 & E2 & _). unfold euler_samples in E. rewrite E1, E2 in E. cbn [firstn] in E.
  apply bind_Ok in E. destruct E as (r1 & F1 & E). apply bind_Ok in E. destruct E as (r2 & F2 & E).
  assert (F : mapM discretise_num [p1; p2; p3; a1; a2; a3] = Ok (r1 ++ r2)) by (change [p1; p2; p3; a1; a2; a3] with ([p1; p2; p3] ++ [a1; a2; a3]); rewrite mapM_app, F1; cbn [bind]; rewrite F2; reflexivity).
  destruct (grid_spec [p1; p2; p3; a1; a2; a3] ltac:(discriminate)) as (r & Er & _ & G); [eapply Forall_impl; [|exact S]; apply strict_sampled|]. rewrite F in Er. injection Er as <-.
  assert (Nr : r1 ++ r2 <> []) by (apply mapM_length in F; intros Z; rewrite Z in F; discriminate).
  apply (mapM_NoDup _ _ _) with (2 := E).
  - eapply Permutation_NoDup; [apply Permutation_sym, create_grid_perm; auto|]. apply choices_NoDup. clear - F S. revert F. generalize (r1 ++ r2). induction S as [|v vs Hv Hvs IH]; intros r F; cbn [mapM] in F; [injection F as <-; constructor|].
    apply bind_Ok in F. destruct F as (c & Ec & F). apply bind_Ok in F. destruct F as (cs & Ecs & F). injection F as <-. constructor; [eapply discretise_NoDup; eauto|auto].
  - intros x y T Ix Iy Ex Ey. apply G in Ix, Iy. apply Forall2_6 in Ix, Iy. destruct Ix as (x1 & x2 & x3 & x4 & x5 & x6 & -> & X1 & X2 & X3 & X4 & X5 & X6), Iy as (y1 & y2 & y3 & y4 & y5 & y6 & -> & Y1 & Y2 & Y3 & Y4 & Y5 & Y6).
    cbn [frame_of_row] in Ex, Ey. assert (EX : M4 (rot_xyz x4 x5 x6) (V3 x1 x2 x3) v0 1 = M4 (rot_xyz y4 y5 y6) (V3 y1 y2 y3) v0 1) by congruence. clear Ex Ey.
    pose proof (f_equal rot EX) as EY. pose proof (f_equal pos EX) as EP. cbn [rot pos] in EY, EP. clear EX. injection EP as -> -> ->. assert (W : forall v, strict v -> proper v) by (intros [z|t]; cbn; intuition lra).
    assert (PS : Forall proper [p1; p2; p3; a1; a2; a3]) by (eapply Forall_impl; [|exact S]; auto). inversion PS as [|? ? _ PS1]; subst. inversion PS1 as [|? ? _ PS2]; subst. inversion PS2 as [|? ? _ PS3]; subst. inversion PS3 as [|? ? Q4 PS4]; subst. inversion PS4 as [|? ? Q5 PS5]; subst. inversion PS5 as [|? ? Q6 _]; subst.
    apply on_grid_within in X4, X5, X6, Y4, Y5, Y6; auto.
    destruct (rot_xyz_inj _ _ _ _ _ _ EY (O2 _ X5) (O2 _ Y5)) as (C1 & -> & C3). apply cong_near in C1; [|apply (narrow_near a1); auto]. apply cong_near in C3; [|apply (narrow_near a3); auto]. subst. reflexivity.
Qed.
(** a full turn about the tool axis: the ends of the band coincide *)
Lemma rot_xyz_turn a b c : rot_xyz a b (c + 2 * PI) = rot_xyz a b c.
Proof. unfold rot_xyz. do 2 f_equal. unfold rot_z. rewrite cos_plus, sin_plus, cos_2PI, sin_2PI. f_equal; ring. Qed.
Lemma mapM_not_NoDup {A B} (f : A -> res B) l l' x y : mapM f l = Ok l' -> In x l -> In y l -> x <> y -> f x = f y -> ~ NoDup l'.
Proof.
  revert l'. induction l as [|a l IH]; intros l' E Ix Iy Hne Ef; [destruct Ix|]. cbn [mapM] in E. apply bind_Ok in E. destruct E as (b & Eb & E). apply bind_Ok in E. destruct E as (bs & Ebs & E). injection E as <-.
  assert (M : forall u, In u l -> f u = Ok b -> In b bs) by (intros u Iu Eu; destruct (mapM_In f l bs u Ebs Iu) as (b' & Eb' & Ib'); congruence).
  intros D. inversion D as [|? ? D1 D2]; subst. destruct Ix as [->|Ix], Iy as [->|Iy].
  - congruence.
  - apply D1, (M y Iy). congruence.
  - apply D1, (M x Ix). congruence.
  - apply (IH bs); auto.
Qed.
Lemma euler_duplicates p1 p2 p3 a1 a2 t pr ar p l : new_eulerpt (p1 :: p2 :: p3 :: pr) (a1 :: a2 :: Tol t :: ar) = Ok p -> Forall sampled [p1; p2; p3; a1; a2] -> (forall v, In v [p1; p2; p3; a1; a2] -> (1 <= count v)%nat) ->
  (2 <= t_samples t)%Z -> t_upper t = t_lower t + 2 * PI -> euler_samples p = Ok l -> ~ NoDup l.
Proof.
  intros Hp S C H U E. destruct (euler_fields _ _ _ _ _ _ _ _ _ Hp) as (E1 & E2 & _). unfold euler_samples in E. rewrite E1, E2 in E. cbn [firstn] in E.
  apply bind_Ok in E. destruct E as (r1 & F1 & E). apply bind_Ok in E. destruct E as (r2 & F2 & E).
  assert (F : mapM discretise_num [p1; p2; p3; a1; a2; Tol t] = Ok (r1 ++ r2)) by (change [p1; p2; p3; a1; a2; Tol t] with ([p1; p2; p3] ++ [a1; a2; Tol t]); rewrite mapM_app, F1; cbn [bind]; rewrite F2; reflexivity).
  destruct (grid_spec [p1; p2; p3; a1; a2; Tol t] ltac:(discriminate)) as (r & Er & _ & G).
  { change [p1; p2; p3; a1; a2; Tol t] with ([p1; p2; p3; a1; a2] ++ [Tol t]). apply Forall_app. split; auto. repeat constructor. cbn. lia. }
  rewrite F in Er. injection Er as <-.
  assert (X : forall v, In v [p1; p2; p3; a1; a2] -> exists x, on_grid v x).
  { intros v Iv. rewrite Forall_forall in S. destruct (discretise_num_spec v (S v Iv)) as (c & _ & Lc & Hc). specialize (C v Iv). destruct c as [|x c]; [cbn in Lc; lia|]. exists x. apply Hc. left; auto. }
  destruct (X p1) as [x1 H1]; [cbn; auto|]. destruct (X p2) as [x2 H2]; [cbn; auto|]. destruct (X p3) as [x3 H3]; [cbn; auto|]. destruct (X a1) as [x4 H4]; [cbn; auto|]. destruct (X a2) as [x5 H5]; [cbn; tauto|].
  pose proof PI_RGT_0. eapply (mapM_not_NoDup _ _ _ [x1; x2; x3; x4; x5; t_lower t] [x1; x2; x3; x4; x5; t_upper t] E).
  - apply G. do 5 (apply Forall2_cons; [auto|]). apply Forall2_cons; [|apply Forall2_nil]. cbn. left. split; auto. lia.
  - apply G. do 5 (apply Forall2_cons; [auto|]). apply Forall2_cons; [|apply Forall2_nil]. cbn. right. exists (Z.to_nat (t_samples t) - 1)%nat. split; [lia|]. split; auto. assert (0 < INR (Z.to_nat (t_samples t) - 1)) by (apply lt_0_INR; lia). field. lra.
  - intros Z. injection Z as Z. lra.
  - cbn [frame_of_row]. rewrite U, rot_xyz_turn. reflexivity.
Qed.
Lemma weld_duplicates ps pg r0 r1 r2 off N l p ss : create_weld_line ps pg r0 r1 r2 off N = Ok l -> In p l -> euler_samples p = Ok ss -> ~ NoDup ss.
Proof.
  intros E Ip Es. apply (mapM_In_inv _ _ _ _ E) in Ip. destruct Ip as (t & _ & Ep). unfold weld_point, new_tol in Ep. cbn [bind] in Ep. eapply (euler_duplicates _ _ _ _ _ _ _ _ _ _ Ep); eauto.
  - repeat constructor. cbn. lia.
  - intros v Iv. cbn [In] in Iv. repeat (destruct Iv as [<-|Iv]; [cbn; lia|]). destruct Iv.
  - cbn. lia.
  - cbn. ring.
Qed.

(** ** C106 *)
Lemma above_scene1 x : vz x = 0.2 -> clear_by 0.03 scene1 x.
Proof.
  intros Z y (s & T & (i & Es & ET) & B). cbn [place] in B. unfold scene1, table, table_tf in Es, ET. cbn [c_s c_tf] in Es, ET.
  destruct i as [|i]; [|destruct i; discriminate]; cbn [nth_error] in Es, ET; injection Es as <-; injection ET as <-; apply (shifted_box _ _ _ _ _ _ eq_refl) in B; cbn [dx dy dz] in B. apply far_z; [lra|]. apply le_Rabs. lra.
Qed.
Lemma above_scene2 x : vz x = 0.2 -> clear_by 0.02 scene2 x.
Proof.
  intros Z y (s & T & (i & Es & ET) & B). cbn [place] in B. unfold scene2 in Es, ET. cbn [c_s c_tf] in Es, ET.
  destruct i as [|[|[|i]]]; [| | |destruct i; discriminate]; cbn [nth_error] in Es, ET; injection Es as <-; injection ET as <-; apply (shifted_box _ _ _ _ _ _ eq_refl) in B; cbn [dx dy dz] in B; (apply far_z; [lra|]; apply le_Rabs; lra).
Qed.
Lemma table_quat : exists q1, quat_axis_angle (V3 0 1 0) PI = Ok q1 /\ qnorm2 q1 = 1 /\ col2 (qrot q1) = V3 0 0 (-1).
Proof.
  assert (N : norm2 (V3 0 1 0) = 1) by (munf; ring). destruct (axis_angle_clear (V3 0 1 0) PI) as (q & E & Q & H); [rewrite N; lra|left; auto|]. exists q. split; auto. split; auto.
  assert (C : forall A : mat3, mapply A (V3 0 0 1) = col2 A) by (intros [a b c d e f g h i]; munf; apply vec3_eq; cbn [vx vy vz]; ring). rewrite <- C, H, (unit_axis_id _ N).
  unfold rodrigues. rewrite cos_PI, sin_PI. munf. apply vec3_eq; cbn [vx vy vz]; ring.
Qed.
Definition table_pt_ok (s : R) (p : pospt) : Prop := exists l, pos_samples p = Ok l /\ length l = 10%nat /\
  forall T, In T l -> rigid T /\ col2 (rot T) = V3 0 0 (-1) /\ 0.75 + 0.1 * sin (2 * PI * s) <= vx (pos T) <= 0.85 + 0.1 * sin (2 * PI * s) /\ vy (pos T) = -0.2 + 0.4 * s /\ vz (pos T) = 0.2.
Lemma path_pos_tol_ok N : exists l, path_pos_tol N = Ok l /\ length l = N /\ forall k p, nth_error l k = Some p -> table_pt_ok (par N k) p.
Proof.
  unfold path_pos_tol. destruct table_quat as (q1 & Eq & Qn & Qc). rewrite Eq. cbn [bind].
  destruct (mapM_ex (table_point q1) table_pt_ok (linspace 0 1 N)) as (l & E & F).
  { intros s _. unfold table_point, new_tol. cbn [bind]. cbv zeta. set (xt := TN _ _ _ 10). set (yv := s * 0.2 + (1 - s) * (-0.2)).
    assert (exists p, new_pospt [Tol xt; Fix yv; Fix 0.2] q1 = Ok p) as [p Ep] by (eexists; reflexivity). exists p. split; auto.
    destruct (pos_spec _ _ _ _ _ _ Ep) as (l & El & Ll & _); [repeat constructor; cbn; lia|]. destruct (pos_within _ _ _ _ _ _ Ep) as (l' & El' & Hl); [repeat constructor; cbn; try lia; lra|lra|].
    rewrite El in El'. injection El' as <-. exists l. split; auto. split; [exact Ll|]. intros T IT. destruct (Hl T IT) as (RT & ER & X & Y & Z). split; auto. split; [rewrite ER; auto|]. cbn in X, Y, Z. unfold yv in Y. lra. }
  exists l. split; auto. split; [rewrite <- (Forall2_length F); apply linspace_length|]. intros k p Ek. destruct (Forall2_nth_r _ _ _ _ _ F Ek) as (t & Et & H). apply linspace01 in Et. destruct Et as [_ ->]. auto.
Qed.
Lemma path_pos_tol_clear N l p ss T : path_pos_tol N = Ok l -> In p l -> pos_samples p = Ok ss -> In T ss ->
  clear_by 0.03 scene1 (pos T) /\ clear_by 0.02 scene2 (pos T) /\ 0.65 <= vx (pos T) <= 0.95 /\ -0.2 <= vy (pos T) <= 0.2.
Proof.
  intros E Ip Es IT. destruct (path_pos_tol_ok N) as (l' & E' & L & H). rewrite E in E'. injection E' as <-. apply In_nth_error in Ip. destruct Ip as [k Ek]. destruct (H k p Ek) as (ss' & Es' & _ & HT). rewrite Es in Es'. injection Es' as <-.
  destruct (HT T IT) as (_ & _ & X & Y & Z). split; [apply above_scene1; auto|]. split; [apply above_scene2; auto|]. pose proof (SIN_bound (2 * PI * par N k)). assert (0 <= par N k <= 1) by (apply par_range; rewrite <- L; apply nth_error_Some; congruence). lra.
Qed.
Lemma path_ori_free_ok N k v : nth_error (path_ori_free N) k = Some v -> (k < N)%nat /\ v = [0.8; -0.2 + 0.4 * par N k; 0.2].
Proof.
  unfold path_ori_free. rewrite nth_error_map. destruct (nth_error (linspace 0 1 N) k) as [s|] eqn:E; [|discriminate]. apply linspace01 in E. destruct E as [K ->]. intros H. injection H as <-. split; auto. do 2 f_equal. lra.
Qed.
Lemma path_ori_free_clear N x y z : In [x; y; z] (path_ori_free N) -> clear_by 0.03 scene1 (V3 x y z) /\ clear_by 0.02 scene2 (V3 x y z).
Proof.
  intros I. apply In_nth_error in I. destruct I as [k E]. apply path_ori_free_ok in E. destruct E as [_ E]. injection E as -> -> ->. split; [apply above_scene1|apply above_scene2]; reflexivity.
Qed.
