(** * The torch on the flange and the plates of the workpiece (C134). *)
From Coq Require Import Reals Lra Lia List Bool Arith.
From Verif Require Import PyBase Mat Util UtilProofs HaltonProofs Geometry GeometryProofs Robot RobotProofs RobotForms Ik IkProofs KukaProofs RailProofs Path PathProofs Resources ResourcesProofs TaskProofs PipelineProofs Motion.
Import ListNotations.
Local Open Scope R_scope.

(** ** Torch *)
Lemma mount_axes x y z : tapply tf_tool (V3 x y z) = V3 y z x.
Proof.
  unfold tf_tool, tf_at, rot_y, rot_x. rewrite cos_mPI2, sin_mPI2. unfold tapply, mmul, mapply, v0, vadd. cbn [rot pos vx vy vz m00 m01 m02 m10 m11 m12 m20 m21 m22]. apply vec3_eq; cbn [vx vy vz]; ring.
Qed.
(** the torch turned in its own plane, in the flange frame *)
Definition in_plane (X Y Z : R) : vec3 := V3 (sin angle1 * X + cos angle1 * Y) Z (cos angle1 * X - sin angle1 * Y).
Lemma turn_axes X Y Z : tapply tf_tool (tapply tf_rotate (V3 X Y Z)) = in_plane X Y Z.
Proof.
  unfold tf_rotate, tf_at, rot_z. unfold tapply at 2. unfold mapply, v0, vadd. cbn [rot pos vx vy vz m00 m01 m02 m10 m11 m12 m20 m21 m22]. rewrite mount_axes. unfold in_plane. apply vec3_eq; cbn [vx vy vz]; ring.
Qed.
Lemma tip_place : pos tool_tip = in_plane (0.25 + 0.06 * cos angle2) (0.15 + 0.11 * sin angle2) 0.
Proof.
  rewrite tip_pos. unfold wire. rewrite tapply_tmul by (try apply rigid_tmul; auto using tf_rotate_rigid, tf_tool_rigid; apply tf_at_rigid, rot_z_rotation).
  rewrite tapply_tmul by (auto using tf_rotate_rigid; apply tf_at_rigid, rot_z_rotation). rewrite <- turn_axes. f_equal. f_equal.
  unfold tf_at, tapply, rot_z, mapply, pos_data, vadd. cbn [rot pos vx vy vz m00 m01 m02 m10 m11 m12 m20 m21 m22]. apply vec3_eq; cbn [vx vy vz]; lra.
Qed.
Definition mount_box (p : vec3) : Prop := Rabs (vx p) <= 0.04 /\ Rabs (vy p) <= 0.04 /\ -0.005 <= vz p <= 0.075.
Lemma torch_parts p : in_coll (fst torch) None p -> mount_box p \/
  exists X Y Z, p = in_plane X Y Z /\ Rabs Z <= 0.04 /\ ((-0.11 <= X <= 0.07 /\ 0.1125 <= Y <= 0.1875) \/ (0.07 <= X <= 0.35 /\ -0.035 <= Y <= 0.22 /\ (Y <= 0.185 \/ 0.18 <= X))).
Proof.
  intros (s & T & (i & Es & ET) & l & (Hx & Hy & Hz) & ->). apply Rabs_le_inv' in Hx, Hy. cbn [place]. unfold torch in Es, ET. cbn [fst c_s c_tf] in Es, ET. unfold torch_shapes, torch_tfs in *. cbn [map] in ET.
  pose proof tf_tool_rigid. pose proof tf_rotate_rigid. pose proof mid_rotation. pose proof (rot_z_rotation angle2). destruct l as [x y z]. cbn [vx vy vz] in *.
  destruct i as [|[|[|[|[|i]]]]]; [| | | | |destruct i; discriminate]; cbn [nth_error] in Es, ET; injection Es as <-; injection ET as <-; cbn [dx dy dz] in *.
  - left. rewrite tapply_tmul by auto using tf_at_rigid. unfold tf_at, tapply at 2, mapply, mid, pos_data, vadd. cbn [rot pos vx vy vz m00 m01 m02 m10 m11 m12 m20 m21 m22]. rewrite mount_axes. unfold mount_box. cbn [vx vy vz].
    apply Rabs_le_inv' in Hz. split; [apply Rabs_le; lra|]. split; [apply Rabs_le|]; lra.
  - right. rewrite tapply_tmul, (tapply_tmul tf_rotate) by (try apply rigid_tmul; auto using tf_at_rigid). unfold tf_at, tapply at 3, mapply, mid, pos_data, vadd. cbn [rot pos vx vy vz m00 m01 m02 m10 m11 m12 m20 m21 m22]. rewrite turn_axes.
    do 3 eexists. split; [reflexivity|]. split; [|left; lra]. apply Rabs_le_inv' in Hz. apply Rabs_le. lra.
  - right. rewrite tapply_tmul, (tapply_tmul tf_rotate) by (try apply rigid_tmul; auto using tf_at_rigid). unfold tf_at, tapply at 3, mapply, mid, pos_data, vadd. cbn [rot pos vx vy vz m00 m01 m02 m10 m11 m12 m20 m21 m22]. rewrite turn_axes.
    do 3 eexists. split; [reflexivity|]. split; [|right; lra]. apply Rabs_le_inv' in Hz. apply Rabs_le. lra.
  - right. rewrite tapply_tmul, (tapply_tmul tf_rotate) by (try apply rigid_tmul; auto using tf_at_rigid). unfold tf_at, tapply at 3, mapply, mid, pos_data, vadd. cbn [rot pos vx vy vz m00 m01 m02 m10 m11 m12 m20 m21 m22]. rewrite turn_axes.
    do 3 eexists. split; [reflexivity|]. split; [|right; lra]. apply Rabs_le_inv' in Hz. apply Rabs_le. lra.
  - right. rewrite tapply_tmul, (tapply_tmul tf_rotate) by (try apply rigid_tmul; auto using tf_at_rigid). unfold tf_at, tapply at 3, mapply, rot_z, pos_data, vadd. cbn [rot pos vx vy vz m00 m01 m02 m10 m11 m12 m20 m21 m22]. rewrite turn_axes.
    do 3 eexists. split; [reflexivity|]. split; [apply Rabs_le_inv' in Hz; apply Rabs_le; lra|]. right.
    pose proof cos_a2 as C. pose proof sin_a2 as S. pose proof (COS_bound angle2) as C1.
    assert (P : forall u v m, 0 <= u <= 1 -> - m <= v <= m -> - m <= u * v <= m).
    { intros u v m Hu Hv. assert (A : - (u * m) <= u * v <= u * m) by (split; [replace (- (u * m)) with (u * - m) by ring|]; apply Rmult_le_compat_l; lra). assert (u * m <= 1 * m) by (apply Rmult_le_compat_r; lra). lra. }
    pose proof (P (cos angle2) x 0.05 ltac:(lra) ltac:(lra)). pose proof (P (cos angle2) y 0.0125 ltac:(lra) ltac:(lra)).
    pose proof (P (- sin angle2) x 0.05 ltac:(lra) ltac:(lra)). pose proof (P (- sin angle2) y 0.0125 ltac:(lra) ltac:(lra)). lra.
Qed.
Lemma cos_a1_strong : 0.96 <= cos angle1.
Proof.
  pose proof cos_a1 as C. pose proof sin_a1 as S. pose proof (sin2_cos2 angle1) as E. unfold Rsqr in E. set (c := cos angle1) in *. set (s := sin angle1) in *.
  destruct (Rle_lt_dec 0.96 c) as [|H]; auto. exfalso. assert (c * c <= 0.96 * 0.96) by (apply Rmult_le_compat; lra). assert (s * s <= 0.26 * 0.26) by (apply Rmult_le_compat; lra). lra.
Qed.
(** off the axis of the flange, or in front of it *)
Lemma torch_room p : in_coll (fst torch) None p -> 0.079 <= vx p \/ -0.005 <= vz p.
Proof.
  pose proof cos_a1_strong as C. pose proof sin_a1 as S. pose proof (COS_bound angle1) as C1. intros H. destruct (torch_parts p H) as [(_ & _ & B)|(X & Y & Z & -> & _ & B)]; [right; lra|]. unfold in_plane. cbn [vx vy vz].
  set (c := cos angle1) in *. set (s := sin angle1) in *. destruct B as [[B1 B2]|[B1 [B2 B3]]].
  - left. assert (0.96 * 0.1125 <= c * Y) by (apply Rmult_le_compat; lra). assert (s * - X <= 0.26 * 0.11). { destruct (Rle_lt_dec 0 (- X)); [apply Rmult_le_compat; lra|]. assert (s * - X <= s * 0) by (apply Rmult_le_compat_l; lra). lra. } lra.
  - right. assert (0.96 * X <= c * X) by (apply Rmult_le_compat_r; lra). assert (s * Y <= 0.26 * 0.22 /\ (Y <= 0.185 -> s * Y <= 0.26 * 0.185)).
    { destruct (Rle_lt_dec 0 Y); [split; [|intros]; apply Rmult_le_compat; lra|]. assert (s * Y <= s * 0) by (apply Rmult_le_compat_l; lra). lra. }
    destruct B3; lra.
Qed.
(** link 5 and the torch, for every angle of the last joint *)
Definition link5 : coll := coll1 (Shape 0.1 0.1 0.085) (pose_x 0 0 0 (0.085 / 2)).
Definition link6 : coll := coll1 (Shape 0.1 0.1 0.03) (pose_x 0 0 0 (- 0.03 / 2)).
Lemma coll1_local s x y z F p : rigid F -> in_coll (coll1 s (pose_x 0 x y z)) (Some F) p ->
  exists m, p = tapply F m /\ Rabs (vx m - x) <= dx s / 2 /\ Rabs (vy m - y) <= dy s / 2 /\ Rabs (vz m - z) <= dz s / 2.
Proof.
  intros HF (s' & T & ([|[|i]] & E1 & E2) & l & (L1 & L2 & L3) & ->); try discriminate. injection E1 as <-. injection E2 as <-. cbn [place]. rewrite tapply_tmul by (auto; apply pose_x_rigid).
  exists (tapply (pose_x 0 x y z) l). split; auto. rewrite pose_x_0. destruct l as [a b c]. unfold tapply, mapply, mid, vadd. cbn [rot pos vx vy vz m00 m01 m02 m10 m11 m12 m20 m21 m22] in *.
  replace (1 * a + 0 * b + 0 * c + x - x) with a by ring. replace (0 * a + 1 * b + 0 * c + y - y) with b by ring. replace (0 * a + 0 * b + 1 * c + z - z) with c by ring. auto.
Qed.
Lemma torch_local F p : rigid F -> in_coll (fst torch) (Some F) p -> exists m, p = tapply F m /\ in_coll (fst torch) None m.
Proof.
  intros HF (s & T & M & l & Hl & ->). cbn [place]. destruct torch_rigid as [RT _]. unfold rigid_coll in RT. rewrite Forall_forall in RT.
  assert (HT : rigid T) by (destruct M as (i & _ & E); apply RT; eapply nth_error_In; eauto).
  exists (tapply T l). split; [apply tapply_tmul; auto|]. exists s, T. split; auto. exists l. auto.
Qed.
Lemma link5_free F d6 t p : rigid F -> 0.09 < d6 -> in_coll link5 (Some F) p -> in_coll (fst torch) (Some (tmul F (dhm 0 0 d6 t))) p -> False.
Proof.
  intros HF Hd H1 H2. apply coll1_local in H1; auto. destruct H1 as (m & E & Mx & My & Mz). apply torch_local in H2; [|apply rigid_tmul; auto; apply dhm_rigid]. destruct H2 as (n & E' & Hn).
  rewrite tapply_tmul in E' by (auto; apply dhm_rigid). assert (Em : m = tapply (dhm 0 0 d6 t) n) by (rewrite <- (rigid_tapply_inv' F m), <- (rigid_tapply_inv' F (tapply (dhm 0 0 d6 t) n)) by auto; congruence).
  rewrite dhm_dhx, dhx_0 in Em. destruct n as [a b c]. unfold tapply, mapply, rot_z, vadd in Em. cbn [rot pos vx vy vz m00 m01 m02 m10 m11 m12 m20 m21 m22] in Em.
  cbn [dx dy dz] in *. destruct (torch_room _ Hn) as [R|R]; cbn [vx vy vz] in R.
  - assert (Q : vx m * vx m + vy m * vy m = a * a + b * b).
    { rewrite Em. cbn [vx vy]. pose proof (sin2_cos2 t) as S. unfold Rsqr in S. transitivity ((sin t * sin t + cos t * cos t) * (a * a + b * b)); [ring|rewrite S; ring]. }
    rewrite Rminus_0_r in Mx, My. assert (vx m * vx m <= 0.05 * 0.05) by (rewrite <- (abs_sqr (vx m)); apply Rmult_le_compat; try apply Rabs_pos; lra).
    assert (vy m * vy m <= 0.05 * 0.05) by (rewrite <- (abs_sqr (vy m)); apply Rmult_le_compat; try apply Rabs_pos; lra).
    assert (0.079 * 0.079 <= a * a) by (apply Rmult_le_compat; lra). pose proof (Rle_0_sqr b). unfold Rsqr in *. lra.
  - apply (f_equal vz) in Em. cbn [vz] in Em. apply Rabs_le_inv' in Mz. lra.
Qed.
Lemma link6_meets F : rigid F -> in_coll link6 (Some F) (pos F) /\ in_coll (fst torch) (Some F) (pos F).
Proof.
  intros HF. split.
  - eexists _, _. split; [exists 0%nat; split; reflexivity|]. exists (V3 0 0 0.015). split; [unfold local_in; cbn [vx vy vz dx dy dz]; rewrite Rabs_R0; split; [lra|]; split; [lra|]; apply Rabs_le; lra|].
    cbn [place]. rewrite tapply_tmul by (auto; apply pose_x_rigid). rewrite pose_x_0. replace (tapply (M4 mid (V3 0 0 (- 0.03 / 2)) v0 1) (V3 0 0 0.015)) with v0; [symmetry; apply tapply_v0|].
    unfold tapply, mapply, mid, vadd, v0. cbn [rot pos vx vy vz m00 m01 m02 m10 m11 m12 m20 m21 m22]. apply vec3_eq; cbn [vx vy vz]; lra.
  - eexists _, _. split; [exists 0%nat; split; reflexivity|]. exists (V3 (-0.035) 0 0). split; [unfold local_in; cbn [vx vy vz dx dy dz]; rewrite !Rabs_R0; split; [apply Rabs_le; lra|]; split; lra|].
    pose proof tf_tool_rigid. pose proof mid_rotation. cbn [place]. rewrite tapply_tmul, tapply_tmul by (try apply rigid_tmul; auto using tf_at_rigid).
    replace (tapply (tf_at mid (pos_data 0)) (V3 (-0.035) 0 0)) with (V3 0 0 0). { rewrite mount_axes. symmetry. apply tapply_v0. }
    unfold tf_at, tapply, mapply, mid, vadd, pos_data. cbn [rot pos vx vy vz m00 m01 m02 m10 m11 m12 m20 m21 m22]. apply vec3_eq; cbn [vx vy vz]; lra.
Qed.
Lemma kuka_torch5 a1 a2 d4 d6 r q l x : 0.09 < d6 -> same_links r (KukaG a1 a2 d4 d6) -> rigid (r_tfb r) -> (6 <= length q)%nat ->
  nth_error (r_links r) 4 = Some l -> in_coll (l_geom l) (Some (frame r q 4)) x -> in_coll (fst torch) (Some (frame r q 5)) x -> False.
Proof.
  intros Hd H Rb L El H1 H2. get_link H 4%nat l4 E4 Ed4 Ej4 Eg4. rewrite El in E4. injection E4 as <-. rewrite Eg4 in H1. get_link H 5%nat l5 E5 Ed5 Ej5 Eg5.
  destruct (nth_error_some q 5 ltac:(lia)) as [t Et]. rewrite (frame_step r q 5 l5 t E5 Et) in H2. cbn [before] in H2. unfold lspec in H2. rewrite Ej5, Ed5 in H2. cbn [da dalpha dd] in H2.
  exact (link5_free (frame r q 4) d6 t x (frame_rigid r q 4 Rb) Hd H1 H2).
Qed.
Lemma rail_torch5 a1 a2 d4 d6 r q l x : 0.09 < d6 -> same_links r (KukaOnRailG a1 a2 d4 d6) -> rigid (r_tfb r) -> (7 <= length q)%nat ->
  nth_error (r_links r) 5 = Some l -> in_coll (l_geom l) (Some (frame r q 5)) x -> in_coll (fst torch) (Some (frame r q 6)) x -> False.
Proof.
  intros Hd H Rb L El H1 H2. get_link H 5%nat l4 E4 Ed4 Ej4 Eg4. rewrite El in E4. injection E4 as <-. rewrite Eg4 in H1. get_link H 6%nat l5 E5 Ed5 Ej5 Eg5.
  destruct (nth_error_some q 6 ltac:(lia)) as [t Et]. rewrite (frame_step r q 6 l5 t E5 Et) in H2. cbn [before] in H2. unfold lspec in H2. rewrite Ej5, Ed5 in H2. cbn [da dalpha dd] in H2.
  exact (link5_free (frame r q 5) d6 t x (frame_rigid r q 5 Rb) Hd H1 H2).
Qed.
Lemma kuka_torch6 a1 a2 d4 d6 r q : same_links r (KukaG a1 a2 d4 d6) -> rigid (r_tfb r) ->
  exists l, nth_error (r_links r) 5 = Some l /\ in_coll (l_geom l) (Some (frame r q 5)) (pos (frame r q 5)) /\ in_coll (fst torch) (Some (frame r q 5)) (pos (frame r q 5)).
Proof.
  intros H Rb. get_link H 5%nat l E Ed Ej Eg. exists l. split; auto. rewrite Eg. apply link6_meets. apply frame_rigid; auto.
Qed.
(** the answer of is_in_self_collision with the torch: pairs of links, or the torch and one of the first four links *)
Definition torch_hits (r : robot) (q : list R) : Prop :=
  exists i l x, (i < 4)%nat /\ nth_error (r_links r) i = Some l /\ in_coll (l_geom l) (Some (frame r q i)) x /\ in_coll (fst torch) (Some (frame r q 5)) x.
Definition links_hit (r : robot) (q : list R) : Prop :=
  exists i j li lj x, (i + 3 <= j)%nat /\ nth_error (r_links r) i = Some li /\ nth_error (r_links r) j = Some lj /\
    in_coll (l_geom li) (Some (frame r q i)) x /\ in_coll (l_geom lj) (Some (frame r q j)) x.
Lemma kuka_torch_self prim a1 a2 d4 d6 r q : exact_prim prim -> 0.09 < d6 -> good r -> same_links r (KukaG a1 a2 d4 d6) -> rigid (r_tfb r) -> (6 <= length q)%nat ->
  r_tool r = Some torch -> r_mat r = band ->
  exists b, snd (is_in_self_collision prim r q) = Ok b /\ (b = true <-> links_hit r q \/ torch_hits r q).
Proof.
  intros X Hd G H Rb L Et Em. assert (N : ndof r = 6%nat) by (rewrite (same_links_ndof _ _ H); reflexivity). destruct (kuka_rigid a1 a2 d4 d6) as [KR KJ].
  pose proof (same_links_joints _ _ H KJ) as J. pose proof (same_links_rigid _ _ H KR) as RL. destruct torch_rigid as [TR _].
  assert (HL : forall i l, nth_error (r_links r) i = Some l -> rigid_coll (l_geom l)) by (intros i l E; unfold rigid_links in RL; rewrite Forall_forall in RL; apply RL; eapply nth_error_In; eauto).
  assert (HF : forall i, rigid_opt (Some (frame r q i))) by (intros i; apply frame_rigid; auto).
  destruct (is_in_self_correct prim r q G J ltac:(lia) ltac:(lia)) as (b & E & Hb). exists b. split; auto. rewrite Hb. unfold self_spec. rewrite N, Et, Em. split.
  - intros [(i & j & li & lj & Ei & Ej & B & C)|(tool & tip & i & l & E0 & Li & El & C)].
    + left. apply collision_points in C; auto; try apply HF; try (eapply HL; eassumption). destruct C as (x & C1 & C2). unfold band in B. apply orb_true_iff in B. destruct B as [B|B]; apply Nat.leb_le in B.
      * exists j, i, lj, li, x. auto 10.
      * exists i, j, li, lj, x. auto 10.
    + right. injection E0 as E0 _. subst tool. apply collision_points in C; auto; try apply HF; try (eapply HL; eassumption). destruct C as (x & C1 & C2). exists i, l, x.
      destruct (Nat.eq_dec i 4) as [->|]; [exfalso; exact (kuka_torch5 a1 a2 d4 d6 r q l x Hd H Rb L El C1 C2)|]. split; [lia|]. auto.
  - intros [(i & j & li & lj & x & B & Ei & Ej & C1 & C2)|(i & l & x & Li & El & C1 & C2)].
    + left. exists i, j, li, lj. split; auto. split; auto. split; [unfold band; apply orb_true_iff; right; apply Nat.leb_le; lia|]. apply collision_points; auto; [eapply HL; eassumption|eapply HL; eassumption|]. eauto.
    + right. exists (fst torch), (snd torch), i, l. split; [reflexivity|]. split; [lia|]. split; auto. apply collision_points; auto; try apply HF; [eapply HL; eassumption|]. eauto.
Qed.

(** ** Workpiece *)
Lemma shifted_iff s x y z p : in_box s (pose_x 0 x y z) p <->
  x - dx s / 2 <= vx p <= x + dx s / 2 /\ y - dy s / 2 <= vy p <= y + dy s / 2 /\ z - dz s / 2 <= vz p <= z + dz s / 2.
Proof.
  split; [intros H; apply (shifted_box s _ x y z p (pose_x_0 x y z) H)|]. intros (A & B & C). exists (V3 (vx p - x) (vy p - y) (vz p - z)). split; [unfold local_in; cbn [vx vy vz]; repeat split; apply Rabs_le; lra|].
  rewrite pose_x_0. destruct p as [a b c]. unfold tapply, mapply, mid, vadd. cbn [rot pos vx vy vz m00 m01 m02 m10 m11 m12 m20 m21 m22]. apply vec3_eq; cbn [vx vy vz]; ring.
Qed.
(** the inner space, open to the front (negative y) *)
Definition cavity (p : vec3) : Prop := Rabs (vx p) < wp_l / 2 - wp_t /\ vy p < wp_w / 2 - wp_t /\ wp_t < vz p < wp_h + wp_t.
Lemma workpiece_set p : in_coll workpiece None p <->
  Rabs (vx p) <= wp_l / 2 /\ Rabs (vy p) <= wp_w / 2 /\ 0 <= vz p <= wp_h + 2 * wp_t /\ ~ cavity p.
Proof.
  split.
  - intros (s & T & (i & Es & ET) & B). cbn [place] in B. unfold workpiece in Es, ET. cbv zeta in Es, ET. cbn [c_s c_tf] in Es, ET.
    destruct i as [|[|[|[|[|i]]]]]; [| | | | |destruct i; discriminate]; cbn [nth_error] in Es, ET; injection Es as <-; injection ET as <-; apply shifted_iff in B; cbn [dx dy dz] in B; unfold cavity; unfold wp_h, wp_w, wp_l, wp_t in *;
    (split; [apply Rabs_le; lra|]; split; [apply Rabs_le; lra|]; split; [lra|]; intros (C1 & C2 & C3); apply Rabs_def2 in C1; lra).
  - intros (A & B & C & D). apply Rabs_le_inv' in A, B. unfold cavity in D. unfold workpiece. cbv zeta.
    assert (W : forall i s x y z, nth_error (c_s workpiece) i = Some s -> nth_error (c_tf workpiece) i = Some (pose_x 0 x y z) -> in_box s (pose_x 0 x y z) p -> in_coll workpiece None p).
    { intros i s x y z E1 E2 H. exists s, (pose_x 0 x y z). split; [exists i; auto|exact H]. }
    destruct (Rle_lt_dec (vz p) wp_t) as [Z1|Z1].
    { eapply (W 0%nat); [reflexivity|reflexivity|]. apply shifted_iff. cbn [dx dy dz]. lra. }
    destruct (Rle_lt_dec (wp_h + wp_t) (vz p)) as [Z2|Z2].
    { eapply (W 1%nat); [reflexivity|reflexivity|]. apply shifted_iff. cbn [dx dy dz]. lra. }
    destruct (Rle_lt_dec (wp_l / 2 - wp_t) (vx p)) as [X1|X1].
    { eapply (W 3%nat); [reflexivity|reflexivity|]. apply shifted_iff. cbn [dx dy dz]. lra. }
    destruct (Rle_lt_dec (vx p) (- (wp_l / 2 - wp_t))) as [X2|X2].
    { eapply (W 4%nat); [reflexivity|reflexivity|]. apply shifted_iff. cbn [dx dy dz]. lra. }
    eapply (W 2%nat); [reflexivity|reflexivity|]. apply shifted_iff. cbn [dx dy dz].
    assert (~ vy p < wp_w / 2 - wp_t) by (intros Y; apply D; split; [apply Rabs_def1; lra|auto]). lra.
Qed.
(** p lies inside the box, not on its surface *)
Definition inside (s : shape) (T : mat4) (p : vec3) : Prop :=
  exists l, p = tapply T l /\ Rabs (vx l) < dx s / 2 /\ Rabs (vy l) < dy s / 2 /\ Rabs (vz l) < dz s / 2.
Lemma shifted_inside s x y z p : inside s (pose_x 0 x y z) p ->
  x - dx s / 2 < vx p < x + dx s / 2 /\ y - dy s / 2 < vy p < y + dy s / 2 /\ z - dz s / 2 < vz p < z + dz s / 2.
Proof.
  intros (l & -> & A & B & C). apply Rabs_def2 in A, B, C. rewrite pose_x_0. destruct l as [a b c]. unfold tapply, mapply, mid, vadd. cbn [rot pos vx vy vz m00 m01 m02 m10 m11 m12 m20 m21 m22] in *. lra.
Qed.
Lemma plates_apart i j si sj Ti Tj p : i <> j -> nth_error (c_s workpiece) i = Some si -> nth_error (c_tf workpiece) i = Some Ti ->
  nth_error (c_s workpiece) j = Some sj -> nth_error (c_tf workpiece) j = Some Tj -> inside si Ti p -> inside sj Tj p -> False.
Proof.
  assert (K : forall i j si sj Ti Tj, (i < j)%nat -> nth_error (c_s workpiece) i = Some si -> nth_error (c_tf workpiece) i = Some Ti ->
    nth_error (c_s workpiece) j = Some sj -> nth_error (c_tf workpiece) j = Some Tj -> inside si Ti p -> inside sj Tj p -> False).
  { clear. unfold workpiece. cbv zeta. cbn [c_s c_tf]. intros i j si sj Ti Tj H A B C D I1 I2.
    destruct i as [|[|[|[|[|i]]]]]; [| | | | |destruct i; discriminate]; cbn [nth_error] in A, B; injection A as <-; injection B as <-; apply shifted_inside in I1; cbn [dx dy dz] in I1;
    (destruct j as [|[|[|[|[|j]]]]]; [| | | | |destruct j; discriminate]; try lia; cbn [nth_error] in C, D; injection C as <-; injection D as <-; apply shifted_inside in I2; cbn [dx dy dz] in I2; unfold wp_h, wp_w, wp_l, wp_t in *; lra). }
  intros N A B C D I1 I2. destruct (Nat.lt_total i j) as [H|[H|H]]; [eapply (K i j); eauto|contradiction|eapply (K j i); eauto].
Qed.
(** a Kuka carrying the torch *)
Definition kuka_torch : robot := let r := KukaG 0.18 0.6 0.62 0.115 in Rb (r_links r) (r_limits r) (r_base r) (Some torch) (r_tfb r) (r_mat r) (r_self r) (r_prio r).
Lemma kuka_torch_case : good kuka_torch /\ same_links kuka_torch (KukaG 0.18 0.6 0.62 0.115) /\ rigid (r_tfb kuka_torch) /\ r_tool kuka_torch = Some torch /\ r_mat kuka_torch = band /\ 0.09 < 0.115.
Proof. split; [split; [geoms; repeat constructor|apply Permutation.Permutation_refl]|]. split; [reflexivity|]. split; [apply rigid_eye|]. split; [reflexivity|]. split; [reflexivity|lra]. Qed.
