(** * Property theorems C101-C106: acrobotics/resources.

    [KukaG] and so on: the robots with the boxes of robots.py.  [same_links r
    r0]: r has the links of r0, whatever their cached matrices.  [on_skeleton r
    q k x]: x is on a segment between consecutive frame origins of links k,
    k+1, ...  [in_links r q x]: x is in a box of some link placed at its frame.
    [in_coll c None x]: x is in a box of the collection c.  [par N k]:
    k / (N - 1).  [seam ps pg t]: (1 - t) ps + t pg.  [clear_by d c x]: every
    point of c is at least d away from x.  [sample_of path N T]: T is a sample of
    a point of the path with N points.  [aims_at T x]: x is on the ray from the
    origin of T along its z axis. *)
From Coq Require Import Reals Lra Lia List Bool Arith ZArith.
From Verif Require Import PyBase Mat Util UtilProofs Geometry GeometryProofs Robot RobotProofs Ik Path PathProofs Resources ResourcesProofs TaskProofs.
Import ListNotations.
Local Open Scope R_scope.

(** C101: the default Kuka, the Kuka on a rail (from its second link on) and the anthropomorphic arm. *)
Theorem C101_kuka_boxes : forall r q x, same_links r (KukaG 0.18 0.6 0.62 0.115) -> rigid (r_tfb r) -> (6 <= length q)%nat -> on_skeleton r q 0 x -> in_links r q x.
Proof. exact kuka_covered. Qed.
Print Assumptions C101_kuka_boxes.
Theorem C101_rail_boxes_partial : forall r q x, same_links r (KukaOnRailG 0.18 0.6 0.62 0.115) -> rigid (r_tfb r) -> (7 <= length q)%nat -> on_skeleton r q 1 x -> in_links r q x.
Proof. exact rail_covered. Qed.
Print Assumptions C101_rail_boxes_partial.
Theorem C101_anthropomorphic_boxes : forall a2 a3 r q x, 0 <= a2 -> 0 <= a3 -> same_links r (AnthropomorphicArmG a2 a3) -> rigid (r_tfb r) -> (3 <= length q)%nat -> on_skeleton r q 0 x -> in_links r q x.
Proof. exact anthro_covered. Qed.
Print Assumptions C101_anthropomorphic_boxes.
(** C101: refuted for Arm2, whose boxes are centred on the far end of each link. *)
Theorem C101_arm2_refuted : exists q x, length q = 3%nat /\ on_skeleton (Arm2G 1 1 1) q 0 x /\ ~ in_links (Arm2G 1 1 1) q x.
Proof. exact arm2_uncovered. Qed.
Print Assumptions C101_arm2_refuted.
(** C101: refuted for the planar arm: its boxes have a negative side and contain nothing at all. *)
Theorem C101_planar_refuted : forall a1 a2 a3 r q x, 0 < a1 -> 0 < a2 -> 0 < a3 -> same_links r (PlanarArmG a1 a2 a3) -> ~ in_links r q x.
Proof. exact planar_nothing. Qed.
Print Assumptions C101_planar_refuted.
Example C101_example : let r := KukaG 0.18 0.6 0.62 0.115 in same_links r r /\ rigid (r_tfb r) /\ on_skeleton r [0; 0; 0; 0; 0; 0] 0 v0.
Proof.
  cbv zeta. split; [apply same_links_refl|]. split; [apply eye4_rigid|]. exists 0%nat, 0. split; [cbn; lia|]. split; [lra|].
  cbn [before]. change (r_tfb (KukaG 0.18 0.6 0.62 0.115)) with eye4. destruct (pos (frame _ _ _)). unfold eye4, v0, vadd, vscale. cbn. f_equal; ring.
Qed.

(** C102 *)
Theorem C102_kuka_skeleton : forall prim r q scene x, exact_prim prim -> good r -> same_links r (KukaG 0.18 0.6 0.62 0.115) -> rigid (r_tfb r) -> (6 <= length q)%nat -> rigid_coll scene ->
  on_skeleton r q 0 x -> in_coll scene None x -> snd (robot_collision prim r q scene) = Ok true.
Proof. exact kuka_skeleton_hit. Qed.
Print Assumptions C102_kuka_skeleton.
Theorem C102_rail_skeleton : forall prim r q scene x, exact_prim prim -> good r -> same_links r (KukaOnRailG 0.18 0.6 0.62 0.115) -> rigid (r_tfb r) -> (7 <= length q)%nat -> rigid_coll scene ->
  on_skeleton r q 1 x -> in_coll scene None x -> snd (robot_collision prim r q scene) = Ok true.
Proof. exact rail_skeleton_hit. Qed.
Print Assumptions C102_rail_skeleton.
Theorem C102_anthropomorphic_skeleton : forall prim a2 a3 r q scene x, exact_prim prim -> 0 <= a2 -> 0 <= a3 -> good r -> same_links r (AnthropomorphicArmG a2 a3) -> rigid (r_tfb r) -> (3 <= length q)%nat -> rigid_coll scene ->
  on_skeleton r q 0 x -> in_coll scene None x -> snd (robot_collision prim r q scene) = Ok true.
Proof. exact anthro_skeleton_hit. Qed.
Print Assumptions C102_anthropomorphic_skeleton.
(** C102: the mounted tool as well, for every robot *)
Theorem C102_tool_free : forall prim r q scene x tool tip, exact_prim prim -> good r -> joints_ok r -> (ndof r <= length q)%nat -> (1 <= ndof r)%nat ->
  rigid (r_tfb r) -> r_tool r = Some (tool, tip) -> rigid_coll tool -> rigid_coll scene -> snd (robot_collision prim r q scene) = Ok false ->
  in_coll tool (Some (frame r q (ndof r - 1))) x -> ~ in_coll scene None x.
Proof. exact free_tool. Qed.
Print Assumptions C102_tool_free.
(** C102: refuted for the planar arm, which never reports an obstacle. *)
Theorem C102_planar_refuted : forall prim a1 a2 a3 q scene, exact_prim prim -> 0 < a1 -> 0 < a2 -> 0 < a3 -> (3 <= length q)%nat -> rigid_coll scene ->
  snd (robot_collision prim (PlanarArmG a1 a2 a3) q scene) = Ok false.
Proof. exact planar_blind. Qed.
Print Assumptions C102_planar_refuted.
(** a Kuka with a box around its base *)
Example C102_example : let r := KukaG 0.18 0.6 0.62 0.115 in
  exact_prim box_test /\ good r /\ rigid_coll (coll1 (Shape 1 1 1) eye4) /\ in_coll (coll1 (Shape 1 1 1) eye4) None v0 /\
  snd (robot_collision box_test r [0; 0; 0; 0; 0; 0] (coll1 (Shape 1 1 1) eye4)) = Ok true.
Proof.
  cbv zeta. assert (G : good (KukaG 0.18 0.6 0.62 0.115)) by (apply set_geom_good; [apply robot_init_good; repeat constructor|cbn; lia]).
  assert (B : in_coll (coll1 (Shape 1 1 1) eye4) None v0).
  { apply in_coll_None. exists v0. split; [unfold local_in, v0; cbn; rewrite Rabs_R0; lra|]. unfold eye4. vring. }
  assert (RC : rigid_coll (coll1 (Shape 1 1 1) eye4)) by apply coll1_rigid, eye4_rigid.
  split; [apply box_test_exact|]. split; [exact G|]. split; [exact RC|]. split; [exact B|].
  destruct C101_example as (S & R & K). apply (C102_kuka_skeleton box_test _ [0; 0; 0; 0; 0; 0] _ v0 box_test_exact G S R (le_n 6) RC K B).
Qed.

(** C103 *)
Theorem C103_rigid : rigid_coll (fst torch) /\ rigid tool_tip.
Proof. exact torch_rigid. Qed.
Print Assumptions C103_rigid.
(** C103: the tip lies 0.06 along the x axis of the last box and its z axis is that axis. *)
Theorem C103_tip_position : pos tool_tip = tapply wire (V3 0.06 0 0).
Proof. exact tip_pos. Qed.
Print Assumptions C103_tip_position.
Theorem C103_tip_axis : col2 (rot tool_tip) = col0 (rot wire).
Proof. exact tip_axis. Qed.
Print Assumptions C103_tip_axis.
(** C103: the tip is outside every box. *)
Theorem C103_tip_outside : ~ in_coll (fst torch) None (pos tool_tip).
Proof. exact tip_outside. Qed.
Print Assumptions C103_tip_outside.
Example C103_example : nth_error torch_tfs 4 = Some wire /\ length torch_tfs = length torch_shapes.
Proof. split; reflexivity. Qed.

(** C104: any weld line *)
Theorem C104_weld_line : forall ps pg r0 r1 r2 off N, exists l, create_weld_line ps pg r0 r1 r2 off N = Ok l /\ length l = N /\
  forall k p, nth_error l k = Some p ->
    nominal_transform p = Ok (M4 (rot_xyz r0 r1 r2) (vadd (seam ps pg (par N k)) off) v0 1) /\
    exists ss, euler_samples p = Ok ss /\ length ss = 30%nat /\
    forall T, In T ss -> rigid T /\ pos T = vadd (seam ps pg (par N k)) off /\
      exists a c, r0 - 0.5 <= a <= r0 + 0.5 /\ r2 - PI <= c <= r2 + PI /\ rot T = rot_xyz a r1 c.
Proof. exact weld_line_ok. Qed.
Print Assumptions C104_weld_line.
(** C104: the three bundled lines stay clear of the workpiece ... *)
Theorem C104_clearance1 : forall N T, sample_of weld_path1 N T -> clear_by 0.04 workpiece (pos T).
Proof. exact weld_path1_clear. Qed.
Print Assumptions C104_clearance1.
Theorem C104_clearance2 : forall N T, sample_of weld_path2 N T -> clear_by 0.04 workpiece (pos T).
Proof. exact weld_path2_clear. Qed.
Print Assumptions C104_clearance2.
Theorem C104_clearance3 : forall N T, sample_of weld_path3 N T -> clear_by 0.04 workpiece (pos T).
Proof. exact weld_path3_clear. Qed.
Print Assumptions C104_clearance3.
(** C104: ... every sample points into its corner ... *)
Theorem C104_into_corner1 : forall N T, sample_of weld_path1 N T -> vx (col2 (rot T)) = 0 /\ 0 < vy (col2 (rot T)) /\ vz (col2 (rot T)) < 0.
Proof. exact weld_path1_into. Qed.
Print Assumptions C104_into_corner1.
Theorem C104_into_corner2 : forall N T, sample_of weld_path2 N T -> vx (col2 (rot T)) < 0 /\ vz (col2 (rot T)) < 0.
Proof. exact weld_path2_into. Qed.
Print Assumptions C104_into_corner2.
Theorem C104_into_corner3 : forall N T, sample_of weld_path3 N T -> 0 < vx (col2 (rot T)) /\ vz (col2 (rot T)) < 0.
Proof. exact weld_path3_into. Qed.
Print Assumptions C104_into_corner3.
(** C104: ... and the nominal frame aims exactly at the seam. *)
Theorem C104_aim1 : forall N, nominal_aims weld_path1 N (V3 (-0.69) 0.39 0.01) (V3 0.69 0.39 0.01).
Proof. exact weld_path1_aims. Qed.
Print Assumptions C104_aim1.
Theorem C104_aim2 : forall N, nominal_aims weld_path2 N (V3 (-0.79) (-0.3) 0.01) (V3 (-0.79) 0.29 0.01).
Proof. exact weld_path2_aims. Qed.
Print Assumptions C104_aim2.
Theorem C104_aim3 : forall N, nominal_aims weld_path3 N (V3 0.79 (-0.3) 0.01) (V3 0.79 (-0.11) 0.01).
Proof. exact weld_path3_aims. Qed.
Print Assumptions C104_aim3.
(** the paths have samples *)
Example C104_example : exists T, sample_of weld_path1 10 T.
Proof.
  unfold sample_of, weld_path1. destruct (weld_line_ok (V3 (- wp_l / 2 + wp_t + marge) (wp_w / 2 - wp_t) wp_t) (V3 (wp_l / 2 - wp_t - marge) (wp_w / 2 - wp_t) wp_t) (-3 * PI / 4) 0 PI (V3 0 (-0.04) 0.04) 10) as (l & E & L & H).
  destruct l as [|p l]; [discriminate|]. destruct (H 0%nat p eq_refl) as (_ & ss & Es & Ls & _). destruct ss as [|T ss]; [discriminate|]. exists T, (p :: l), p, (T :: ss). repeat split; auto; left; auto.
Qed.

(** C105: distinct frames when rx and rz vary by less than a full turn and the pitch stays off the poles. *)
Theorem C105_distinct_partial : forall p1 p2 p3 a1 a2 a3 pr ar p l, new_eulerpt (p1 :: p2 :: p3 :: pr) (a1 :: a2 :: a3 :: ar) = Ok p -> Forall strict [p1; p2; p3; a1; a2; a3] ->
  narrow a1 -> open_pitch a2 -> narrow a3 -> euler_samples p = Ok l -> NoDup l.
Proof. exact euler_distinct. Qed.
Print Assumptions C105_distinct_partial.
(** C105: refuted for a full turn: the two ends of the band give the same frame ... *)
Theorem C105_full_turn_refuted : forall p1 p2 p3 a1 a2 t pr ar p l, new_eulerpt (p1 :: p2 :: p3 :: pr) (a1 :: a2 :: Tol t :: ar) = Ok p ->
  Forall sampled [p1; p2; p3; a1; a2] -> (forall v, In v [p1; p2; p3; a1; a2] -> (1 <= count v)%nat) ->
  (2 <= t_samples t)%Z -> t_upper t = t_lower t + 2 * PI -> euler_samples p = Ok l -> ~ NoDup l.
Proof. exact euler_duplicates. Qed.
Print Assumptions C105_full_turn_refuted.
(** C105: ... so every point of every weld line repeats frames. *)
Theorem C105_weld_line_refuted : forall ps pg r0 r1 r2 off N l p ss, create_weld_line ps pg r0 r1 r2 off N = Ok l -> In p l -> euler_samples p = Ok ss -> ~ NoDup ss.
Proof. exact weld_duplicates. Qed.
Print Assumptions C105_weld_line_refuted.
Example C105_example : let t := TN (- 1) 1 0 5 in exists p l, new_eulerpt [Fix 0; Fix 0; Fix 0] [Tol t; Fix 0; Tol t] = Ok p /\ euler_samples p = Ok l /\ NoDup l /\ length l = 25%nat.
Proof.
  cbv zeta. set (t := TN (- 1) 1 0 5). destruct (proj2 (new_eulerpt_Ok [Fix 0; Fix 0; Fix 0] [Tol t; Fix 0; Tol t])) as [p Ep]; [cbn; lia|]. exists p.
  destruct (euler_spec _ _ _ _ _ _ _ _ _ Ep) as (l & El & Ll & _); [repeat constructor; cbn; lia|]. exists l. split; [exact Ep|]. split; [exact El|]. split; [|exact Ll].
  assert (2 < PI) by (pose proof PI2_1; lra). eapply C105_distinct_partial; eauto.
  - repeat constructor; cbn; try lia; lra.
  - cbn. lra.
  - intros x Hx. cbn in Hx. lra.
  - cbn. lra.
Qed.

(** C106 *)
Theorem C106_path_pos_tol : forall N, exists l, path_pos_tol N = Ok l /\ length l = N /\ forall k p, nth_error l k = Some p ->
  exists ss, pos_samples p = Ok ss /\ length ss = 10%nat /\
  forall T, In T ss -> rigid T /\ col2 (rot T) = V3 0 0 (-1) /\ 0.75 + 0.1 * sin (2 * PI * par N k) <= vx (pos T) <= 0.85 + 0.1 * sin (2 * PI * par N k) /\
    vy (pos T) = -0.2 + 0.4 * par N k /\ vz (pos T) = 0.2.
Proof. exact path_pos_tol_ok. Qed.
Print Assumptions C106_path_pos_tol.
(** C106: clear of both scenes and within the table *)
Theorem C106_path_pos_tol_clear : forall N l p ss T, path_pos_tol N = Ok l -> In p l -> pos_samples p = Ok ss -> In T ss ->
  clear_by 0.03 scene1 (pos T) /\ clear_by 0.02 scene2 (pos T) /\ 0.65 <= vx (pos T) <= 0.95 /\ -0.2 <= vy (pos T) <= 0.2.
Proof. exact path_pos_tol_clear. Qed.
Print Assumptions C106_path_pos_tol_clear.
Theorem C106_path_ori_free : forall N k v, nth_error (path_ori_free N) k = Some v -> (k < N)%nat /\ v = [0.8; -0.2 + 0.4 * par N k; 0.2].
Proof. exact path_ori_free_ok. Qed.
Print Assumptions C106_path_ori_free.
Theorem C106_path_ori_free_clear : forall N x y z, In [x; y; z] (path_ori_free N) -> clear_by 0.03 scene1 (V3 x y z) /\ clear_by 0.02 scene2 (V3 x y z).
Proof. exact path_ori_free_clear. Qed.
Print Assumptions C106_path_ori_free_clear.
(** the scenes are not empty *)
Example C106_example : in_coll scene1 None (V3 0.8 0 0.12) /\ ~ clear_by 0.1 scene1 (V3 0.8 0 0.2).
Proof.
  assert (B : in_coll scene1 None (V3 0.8 0 0.12)).
  { exists table, table_tf. split; [exists 0%nat; split; reflexivity|]. exists v0. split; [unfold local_in, v0, table; cbn [vx vy vz dx dy dz]; rewrite Rabs_R0; lra|]. unfold table_tf, v0, tapply, mapply, mid, vadd. cbn. f_equal; lra. }
  split; [exact B|]. intros H. specialize (H _ B). unfold norm2, vdot, vsub in H. cbn in H. lra.
Qed.
