(** * Lemmas about examples/optimization_based.py. *)
From Coq Require Import Reals Lra Psatz Lia List Bool Arith.
From Verif Require Import PyBase Mat Util UtilProofs Geometry GeometryProofs Robot RobotProofs RobotForms Ik IkProofs KukaProofs RailProofs Path PathProofs Resources ResourcesProofs TaskProofs Extents Optim OptimProofs OptimDual Mount PipelineExamples OptScript.
Import ListNotations.
Local Open Scope R_scope.

(** ** The problem has a feasible point *)
Lemma unit_angle' c s : c ^ 2 + s ^ 2 = 1 -> exists t, cos t = c /\ sin t = s.
Proof. intros H. exists (atan2 s c). apply atan2_unit. exact H. Qed.
(** elbow up, wrist 0.115 above the point *)
Lemma reach_down l : 0.8 <= l <= 0.825 -> exists q2 f, 0.18 + 0.6 * cos q2 + 0.62 * sin f = l /\ 0.6 * sin q2 - 0.62 * cos f = 0.315 /\ 0 <= cos q2 <= 0.3 /\ 0 <= sin q2 /\ 0 <= cos f.
Proof.
  intros H. set (p := l - 0.18). assert (P : 0.62 <= p <= 0.645) by (unfold p; lra). set (D := p * p + 0.315 * 0.315). assert (D0 : 0.48 <= D <= 0.516) by (unfold D; nra).
  set (m := (D - 0.0244) / 1.2). assert (M : 0.379 <= m <= 0.41) by (unfold m; lra). assert (G0 : 0.31 <= D - m * m <= 0.373) by nra.
  set (g := sqrt (D - m * m)). assert (Eg : g * g = D - m * m) by (apply sqrt_sqrt; lra). assert (Gp : 0 <= g) by apply sqrt_pos. assert (G : 0.55 <= g <= 0.62) by nra.
  set (c := (p * m - 0.315 * g) / D). set (s := (0.315 * m + p * g) / D).
  assert (cD : c * D = p * m - 0.315 * g) by (unfold c; field; lra). assert (sD : s * D = 0.315 * m + p * g) by (unfold s; field; lra).
  assert (U : c ^ 2 + s ^ 2 = 1).
  { apply (Rmult_eq_reg_r (D * D)); [|nra]. transitivity ((c * D) * (c * D) + (s * D) * (s * D)); [ring|]. rewrite cD, sD.
    transitivity ((m * m + g * g) * D); [unfold D; ring|rewrite Eg; ring]. }
  assert (Dm : p * c + 0.315 * s = m).
  { apply (Rmult_eq_reg_r D); [|lra]. transitivity (p * (c * D) + 0.315 * (s * D)); [ring|]. rewrite cD, sD. unfold D; ring. }
  assert (V : ((0.6 * s - 0.315) / 0.62) ^ 2 + ((p - 0.6 * c) / 0.62) ^ 2 = 1).
  { assert (X : (0.6 * s - 0.315) ^ 2 + (p - 0.6 * c) ^ 2 = 0.62 * 0.62).
    { transitivity (0.36 * (c ^ 2 + s ^ 2) + D - 1.2 * (p * c + 0.315 * s)); [unfold D; lra|]. rewrite U, Dm. unfold m. lra. }
    transitivity (((0.6 * s - 0.315) ^ 2 + (p - 0.6 * c) ^ 2) / (0.62 * 0.62)); [field|rewrite X; field]; lra. }
  destruct (unit_angle' _ _ U) as (q2 & C2 & S2). destruct (unit_angle' _ _ V) as (f & Cf & Sf). exists q2, f. rewrite C2, S2, Cf, Sf.
  assert (B1 : 0 <= c) by nra. assert (B2 : c <= 0.3) by nra. assert (B3 : 0.525 <= s) by nra.
  split; [unfold p; lra|]. split; [lra|]. split; [lra|]. split; lra.
Qed.
(** ** Frames with a wrist that stays in the plane of the arm *)
Local Notation kuka6 := (KukaG 0.18 0.6 0.62 0.115).
Definition up_frame (q1 f x z : R) : mat4 := M4 (M3 (cos q1 * cos f) (- (cos q1 * sin f)) (sin q1) (sin q1 * cos f) (- (sin q1 * sin f)) (- cos q1) (sin f) (cos f) 0) (V3 (cos q1 * x) (sin q1 * x) z) v0 1.
Lemma planar_frames q1 q2 q3 q5 : let q := [q1; q2; q3; 0; q5; 0] in
  frame kuka6 q 0 = up_frame q1 0 0.18 0 /\
  frame kuka6 q 1 = up_frame q1 q2 (0.18 + 0.6 * cos q2) (0.6 * sin q2) /\
  frame kuka6 q 2 = M4 (arm2_rot q1 (q2 + q3)) (V3 (cos q1 * (0.18 + 0.6 * cos q2)) (sin q1 * (0.18 + 0.6 * cos q2)) (0.6 * sin q2)) v0 1 /\
  frame kuka6 q 3 = up_frame q1 (q2 + q3) (0.18 + 0.6 * cos q2 + 0.62 * sin (q2 + q3)) (0.6 * sin q2 - 0.62 * cos (q2 + q3)) /\
  frame kuka6 q 4 = M4 (arm2_rot q1 (q2 + q3 + q5)) (kuka_centre 0.18 0.6 0.62 q1 q2 q3) v0 1 /\
  frame kuka6 q 5 = M4 (arm2_rot q1 (q2 + q3 + q5)) (vadd (kuka_centre 0.18 0.6 0.62 q1 q2 q3) (vscale 0.115 (col2 (arm2_rot q1 (q2 + q3 + q5))))) v0 1.
Proof.
  cbv zeta. unfold frame. geoms. cbn [combine firstn fold_left fst snd r_tfb]. unfold lspec. geoms. cbn [l_jt l_dh da dalpha dd]. rewrite !tmul_1_l. rewrite !kuka_arm.
  assert (E0 : dhm 0.18 (PI / 2) 0 q1 = up_frame q1 0 0.18 0) by (rewrite dhm_dhx, dhx_p; unfold up_frame; rewrite cos_0, sin_0; trigring).
  assert (E1 : tmul (dhm 0.18 (PI / 2) 0 q1) (dhm 0.6 0 0 q2) = up_frame q1 q2 (0.18 + 0.6 * cos q2) (0.6 * sin q2)) by (chain; unfold up_frame; trigring).
  set (A := arm2_rot q1 (q2 + q3)). set (p := V3 (cos q1 * (0.18 + 0.6 * cos q2)) _ _).
  assert (E3 : tmul (M4 A p v0 1) (dhm 0 (- PI / 2) 0.62 0) = up_frame q1 (q2 + q3) (0.18 + 0.6 * cos q2 + 0.62 * sin (q2 + q3)) (0.6 * sin q2 - 0.62 * cos (q2 + q3))).
  { rewrite dhm_dhx, dhx_m. unfold A, p, arm2_rot, up_frame. rewrite cos_0, sin_0. rewrite tmulb. munf. apply mat4_eq; [apply mat3_eq|apply vec3_eq| |]; cbn [rot pos brow bww vx vy vz m00 m01 m02 m10 m11 m12 m20 m21 m22]; try reflexivity; ring. }
  rewrite E3. set (B := up_frame q1 (q2 + q3) _ _).
  assert (E4 : tmul B (dhm 0 (PI / 2) 0 q5) = M4 (arm2_rot q1 (q2 + q3 + q5)) (kuka_centre 0.18 0.6 0.62 q1 q2 q3) v0 1).
  { rewrite dhm_dhx, dhx_p. unfold B, up_frame, arm2_rot, kuka_centre. rewrite (cos_plus (q2 + q3) q5), (sin_plus (q2 + q3) q5). rewrite tmulb. munf. apply mat4_eq; [apply mat3_eq|apply vec3_eq| |]; cbn [rot pos brow bww vx vy vz m00 m01 m02 m10 m11 m12 m20 m21 m22]; try reflexivity; ring. }
  rewrite E4. split; [exact E0|]. split; [exact E1|]. split; [reflexivity|]. split; [reflexivity|]. split; [reflexivity|].
  rewrite dhm_dhx, dhx_0, tmulb. unfold rot_z. rewrite cos_0, sin_0. generalize (arm2_rot q1 (q2 + q3 + q5)) (kuka_centre 0.18 0.6 0.62 q1 q2 q3). intros. vring.
Qed.
(** distance from the table *)
Lemma table_far x y : 0.171 <= vz x \/ vx x <= 0.549 -> in_box table table_tf y -> eps0 ^ 2 <= norm2 (vsub x y).
Proof.
  intros H B. assert (K : in_coll scene1 None y) by (exists table, table_tf; split; [exists 0%nat; split; reflexivity|exact B]).
  apply scene1_extent in K. inversion K as [? ? Kb|? ? Kb]; subst; [|inversion Kb]. destruct Kb as (Kx & Ky & Kz). cbn [fst snd vx vy vz] in *. unfold eps0.
  destruct x as [x1 x2 x3], y as [y1 y2 y3]. cbn [vx vy vz] in *. munf. pose proof (pow2_ge_0 (x1 - y1)). pose proof (pow2_ge_0 (x2 - y2)). pose proof (pow2_ge_0 (x3 - y3)).
  destruct H as [H|H]; nra.
Qed.
Lemma box_local s x y z F p : rigid F -> in_box s (tmul F (pose_x 0 x y z)) p ->
  exists m, p = tapply F m /\ Rabs (vx m - x) <= dx s / 2 /\ Rabs (vy m - y) <= dy s / 2 /\ Rabs (vz m - z) <= dz s / 2.
Proof.
  intros HF H. apply (coll1_local s x y z F p HF). exists s, (pose_x 0 x y z). split; [exists 0%nat; split; reflexivity|exact H].
Qed.
Lemma rigid6 q i : rigid (frame kuka6 q i). Proof. apply frame_rigid. apply rigid_eye. Qed.
Lemma down_clear q1 q2 f : Rabs (sin q1) <= 0.25 -> 0 <= cos q2 <= 0.3 -> 0 <= sin q2 -> 0 <= cos f -> 0.6 * sin q2 - 0.62 * cos f = 0.315 ->
  clear_pose kuka6 scene1 [q1; q2; f - q2; 0; - f; 0].
Proof.
  intros H1 H2 H2' Hf Hz. set (q := [q1; q2; f - q2; 0; - f; 0]). destruct (planar_frames q1 q2 (f - q2) (- f)) as (F0 & F1 & F2 & F3 & F4 & F5). fold q in F0, F1, F2, F3, F4, F5.
  replace (q2 + (f - q2)) with f in * by ring. replace (f + - f) with 0 in * by ring.
  exists (map (frame kuka6 q) (seq 0 6)). split.
  { rewrite frames_casadi_agree by (try apply robot_init_good; unfold revolute; geoms; repeat constructor). rewrite frames_snd by (apply robot_init_good; geoms; repeat constructor).
    rewrite framesp_spec by (geoms; try (repeat constructor; cbn [l_jt]; discriminate); cbn; lia). reflexivity. }
  pose proof (COS_bound q1) as C1. apply Rabs_le_inv in H1. pose proof (SIN_bound q2) as S2. pose proof (SIN_bound f) as Sf. pose proof (COS_bound f) as Cf.
  intros i l T s tf j s' T' x y El ET Hm Es' ET' Bx By.
  assert (s' = table /\ T' = table_tf) as [-> ->]. { destruct j as [|[|j]]; cbn in Es', ET'; try discriminate. split; congruence. }
  apply table_far; [|exact By]. clear By Es' ET' y.
  destruct i as [|[|[|[|[|[|i]]]]]]; cbn [seq map nth_error] in ET; [| | | | | |destruct i; discriminate ET]; injection ET as <-; cbn in El; injection El as <-; cbn [l_geom] in Hm;
    (destruct Hm as ([|[|k]] & M1 & M2); [|cbn in M1; discriminate M1|cbn in M1; discriminate M1]); injection M1 as <-; injection M2 as <-;
    (apply box_local in Bx; [|apply rigid6]); destruct Bx as ([mx my mz] & -> & B1 & B2 & B3); cbn [vx vy vz dx dy dz] in B1, B2, B3; apply Rabs_le_inv in B1; apply Rabs_le_inv in B2; apply Rabs_le_inv in B3.
  - right. rewrite F0. unfold up_frame. rewrite cos_0, sin_0. munf. nra.
  - right. rewrite F1. unfold up_frame. munf.
    assert (W1 : (0.6 + mx) * cos q2 <= 0.21) by nra. assert (W1' : -0.03 <= (0.6 + mx) * cos q2) by nra. assert (W2 : -0.1 <= my * sin q2 <= 0.1) by nra. assert (W3 : sin q1 * mz <= 0.025) by nra.
    set (w := 0.18 + (0.6 + mx) * cos q2 - my * sin q2). assert (W : -0.49 <= w <= 0.49) by (unfold w; lra). assert (W4 : cos q1 * w <= 0.49) by nra.
    replace (cos q1 * cos q2 * mx + - (cos q1 * sin q2) * my + sin q1 * mz + cos q1 * (0.18 + 0.6 * cos q2)) with (cos q1 * w + sin q1 * mz) by (unfold w; ring). lra.
  - left. rewrite F2. unfold arm2_rot. munf. nra.
  - left. rewrite F3. unfold up_frame. munf. nra.
  - left. rewrite F4. unfold arm2_rot, kuka_centre. replace (q2 + (f - q2)) with f by ring. rewrite cos_0, sin_0. munf. nra.
  - left. rewrite F5. unfold arm2_rot, kuka_centre. replace (q2 + (f - q2)) with f by ring. rewrite cos_0, sin_0. munf. nra.
Qed.
Lemma hand_down q1 f : col2 (mmul (arm2_rot q1 f) (zyz 0 (- f) 0)) = V3 0 0 (-1).
Proof.
  assert (E : zyz 0 (- f) 0 = rot_y (- f)) by (unfold zyz, rot_z; rewrite cos_0, sin_0; generalize (rot_y (- f)); intros; vring). rewrite E. unfold arm2_rot, rot_y. rewrite cos_neg, sin_neg.
  pose proof (sin2_cos2 f) as T. unfold Rsqr in T. unfold col2, mmul. cbn [m00 m01 m02 m10 m11 m12 m20 m21 m22]. apply vec3_eq; cbn [vx vy vz]; try ring.
  transitivity (- (sin f * sin f + cos f * cos f)); [ring|rewrite T; lra].
Qed.
Lemma point_reached y : -0.2 <= y <= 0.2 -> exists row, length row = 6%nat /\ at_point kuka6 [0.8; y; 0.2] row /\ clear_pose kuka6 scene1 row.
Proof.
  intros Hy. set (l := sqrt (0.8 ^ 2 + y ^ 2)). assert (El : l ^ 2 = 0.8 ^ 2 + y ^ 2) by apply sqrt_sum_sq. assert (L0 : 0 <= l) by apply sqrt_pos. assert (L : 0.8 <= l <= 0.825) by nra.
  destruct (reach_down l L) as (q2 & f & Er & Ez & C2 & S2 & Cf). set (q1 := atan2 y 0.8). destruct (polar 0.8 y) as [P1 P2]. fold l q1 in P1, P2.
  exists [q1; q2; f - q2; 0; - f; 0]. split; [reflexivity|]. split.
  - eexists. exists []. split; [exact (kuka_fk_mount _ _ _ _ (k_rob kuka_object) _ _ _ _ _ _ (ko_rob _ _ _ _ _ kuka_object_ok))|].
    unfold mount, tooled. cbn [r_tool k_rob kuka_object KukaG set_geom set_links Kuka robot_init r_tfb]. rewrite tmul_1_l. unfold kuka_form. cbn [pos]. replace (q2 + (f - q2)) with f by ring. rewrite hand_down.
    unfold kuka_centre. replace (q2 + (f - q2)) with f by ring. rewrite Er, Ez. cbn [vadd vscale vx vy vz].
    f_equal; [|f_equal; [|f_equal]]; lra.
  - apply down_clear; auto. apply Rabs_le. assert (-0.2 <= sin q1 * l <= 0.2) by lra. nra.
Qed.
Lemma kuka6_facts : good kuka6 /\ revolute kuka6 /\ rigid (r_tfb kuka6) /\ Forall one_box (r_links kuka6) /\ Forall (fun l => sized_coll (l_geom l)) (r_links kuka6) /\ proper_scene scene1 /\ sized_coll scene1 /\ (1 <= ndof kuka6)%nat.
Proof.
  split; [apply kukaG_good|]. split; [unfold revolute; geoms; repeat constructor|]. split; [apply rigid_eye|].
  split; [geoms; repeat (apply Forall_cons; [eexists _, _; split; [reflexivity|apply pose_x_rigid]|]); apply Forall_nil|].
  split; [geoms; repeat (apply Forall_cons; [apply Forall_cons; [cbn; unfold sized; cbn; lra|apply Forall_nil]|]); apply Forall_nil|].
  split; [split; [reflexivity|apply Forall_cons; [|apply Forall_nil]]|]. { split; cbn; auto. apply rotation_mid. }
  split; [apply Forall_cons; [unfold sized; cbn; lra|apply Forall_nil]|]. cbn. lia.
Qed.
Lemma line_points N p : In p (path_ori_free N) -> exists y, -0.2 <= y <= 0.2 /\ p = [0.8; y; 0.2].
Proof. intros H. apply in_map_iff in H. destruct H as (s & <- & I). apply linspace_range in I; [|lra]. eexists. split; [|reflexivity]. lra. Qed.
Lemma line_feasible N : exists q lam mu, feasible (path_ori_free N) kuka6 (Some scene1) q lam mu.
Proof.
  assert (E : exists q, Forall (fun row => length row = 6%nat) q /\ Forall2 (at_point kuka6) (path_ori_free N) q /\ Forall (clear_pose kuka6 scene1) q).
  { pose proof (line_points N) as H. induction (path_ori_free N) as [|p ps IH]; [exists []; repeat split; constructor|]. destruct IH as (q & A & B & C); [intros; apply H; right; auto|].
    destruct (H p (or_introl eq_refl)) as (y & Hy & ->). destruct (point_reached y Hy) as (row & D & E & F). exists (row :: q). repeat split; constructor; auto. }
  destruct E as (q & E). exists q. destruct kuka6_facts as (A & B & C & D & F & G & H & I). apply (feasible_exact (path_ori_free N) kuka6 scene1 q A B C D F G H I). exact E.
Qed.
(** ** The guess collides with the table *)
Lemma meets_not_clear r q scene x : good r -> revolute r -> (ndof r <= length q)%nat -> in_links r q x -> in_coll scene None x -> ~ clear_pose r scene q.
Proof.
  intros G V L (i & l & El & s & tf & Hm & Bx) (s' & T' & (j & E1 & E2) & By) (fs & Ef & C).
  assert (J : joints_ok r) by (unfold joints_ok; eapply Forall_impl; [|exact V]; cbn; intros a ->; discriminate).
  rewrite frames_casadi_agree, frames_snd in Ef by auto. rewrite framesp_spec in Ef by auto. injection Ef as <-. assert (Hi : (i < ndof r)%nat) by (apply nth_error_Some; congruence).
  specialize (C i l (frame r q i) s tf j s' T' x x El). assert (K : eps0 ^ 2 <= norm2 (vsub x x)). { apply C; auto. apply (nth_error_frames (frame r q) (ndof r)). auto. }
  assert (Z : norm2 (vsub x x) = 0) by (generalize x; intros [a b c]; unfold norm2, vdot, vsub, vadd, vopp; cbn [vx vy vz]; ring).
  rewrite Z in K. unfold eps0 in K. lra.
Qed.
Lemma scene1_in x : 0.55 <= vx x <= 1.05 -> -0.25 <= vy x <= 0.25 -> 0.07 <= vz x <= 0.17 -> in_coll scene1 None x.
Proof. intros A B C. apply scene1_extent. apply Exists_cons_hd. repeat split; cbn [fst snd vx vy vz]; lra. Qed.
(** a hand pointing straight up, with the flange less than 0.285 above the floor, has its box in the table *)
Lemma up_meets r q T : good r -> same_links r kuka6 -> rigid (r_tfb r) -> r_tool r = None -> (6 <= length q)%nat -> snd (fk r q) = Ok T -> col2 (rot T) = V3 0 0 1 ->
  0.55 <= vx (pos T) <= 1.05 -> -0.25 <= vy (pos T) <= 0.25 -> 0.1 <= vz (pos T) <= 0.285 -> exists x, in_links r q x /\ in_coll scene1 None x.
Proof.
  intros G H B N L E U X Y Z. assert (J : joints_ok r) by (eapply same_links_joints; [exact H|apply kuka_rigid]). assert (D : ndof r = 6%nat) by (rewrite (same_links_ndof _ _ H); reflexivity).
  rewrite fk_ok in E by (auto; lia). rewrite D in E. unfold tooled in E. rewrite N in E. injection E as <-. set (F := frame r q 4).
  destruct (nth_error_some q 5 ltac:(lia)) as [t Et]. get_link H 4%nat l4 E4 Ed4 Ej4 Eg4. get_link H 5%nat l5 E5 Ed5 Ej5 Eg5. rewrite (frame_step r q 5 l5 t E5 Et) in U, X, Y, Z. cbn [before] in U, X, Y, Z. fold F in U, X, Y, Z.
  unfold lspec in U, X, Y, Z. rewrite Ej5, Ed5 in U, X, Y, Z. cbn [da dalpha dd] in U, X, Y, Z. rewrite dhm_dhx, dhx_0 in U, X, Y, Z.
  assert (K : exists h, 0 <= h <= 0.085 /\ 0.07 <= vz (pos F) + h <= 0.17 /\ 0.55 <= vx (pos F) <= 1.05 /\ -0.25 <= vy (pos F) <= 0.25 /\ tapply F (V3 0 0 h) = V3 (vx (pos F)) (vy (pos F)) (vz (pos F) + h)).
  { destruct F as [[a b c d e f g k m] [x y z] w W]. unfold rot_z in *. munf. injection U as U1 U2 U3. ring_simplify in U1. ring_simplify in U2. ring_simplify in U3. subst c f m.
    exists (Rmin 0.085 (Rmax 0 (0.07 - z))). set (h := Rmin _ _). assert (Hh : 0 <= h <= 0.085 /\ 0.07 <= z + h <= 0.17) by (unfold h, Rmin, Rmax; destruct (Rle_dec 0 (0.07 - z)); destruct (Rle_dec _ _); lra).
    split; [lra|]. split; [lra|]. split; [lra|]. split; [lra|]. apply vec3_eq; cbn [vx vy vz]; lra. }
  destruct K as (h & Hh & Kz & Kx & Ky & EK). exists (tapply F (V3 0 0 h)). split.
  - eapply in_links_local; eauto using pose_x_rigid. apply pose_x0_box; cbn [vx vy vz dx dy dz]; apply Rabs_le; lra.
  - rewrite EK. apply scene1_in; cbn [vx vy vz]; lra.
Qed.
Lemma scene1_rigid : rigid_coll scene1.
Proof. constructor; [|constructor]. split; cbn; auto. apply rotation_mid. Qed.
Lemma up_unclear r q T : good r -> same_links r kuka6 -> rigid (r_tfb r) -> r_tool r = None -> (6 <= length q)%nat -> snd (fk r q) = Ok T -> col2 (rot T) = V3 0 0 1 ->
  0.55 <= vx (pos T) <= 1.05 -> -0.25 <= vy (pos T) <= 0.25 -> 0.1 <= vz (pos T) <= 0.285 -> ~ clear_pose r scene1 q.
Proof.
  intros G H B N L E U X Y Z. destruct (up_meets r q T G H B N L E U X Y Z) as (x & Ix & Is). assert (D : ndof r = 6%nat) by (rewrite (same_links_ndof _ _ H); reflexivity).
  assert (V : revolute r). { unfold revolute. eapply same_links_forall; [|exact H|unfold revolute; geoms; repeat constructor]. cbn. intros l l0 _ -> _. auto. }
  apply (meets_not_clear r q scene1 x); auto. lia.
Qed.
Lemma up_hits prim r q T : exact_prim prim -> good r -> same_links r kuka6 -> rigid (r_tfb r) -> r_tool r = None -> (6 <= length q)%nat -> snd (fk r q) = Ok T -> col2 (rot T) = V3 0 0 1 ->
  0.55 <= vx (pos T) <= 1.05 -> -0.25 <= vy (pos T) <= 0.25 -> 0.1 <= vz (pos T) <= 0.285 -> snd (robot_collision prim r q scene1) = Ok true /\ ~ clear_pose r scene1 q.
Proof.
  intros P G H B N L E U X Y Z. split; [|exact (up_unclear r q T G H B N L E U X Y Z)]. destruct (up_meets r q T G H B N L E U X Y Z) as (x & Ix & Is). assert (D : ndof r = 6%nat) by (rewrite (same_links_ndof _ _ H); reflexivity).
  destruct (kuka_rigid 0.18 0.6 0.62 0.115) as [RL J].
  eapply hit_in_links; eauto; try lia; [eapply same_links_joints; eauto|eapply same_links_rigid; eauto|apply scene1_rigid].
Qed.

(** ** The eight rows of the inverse kinematics *)
Lemma elbow_plain c : Rabs c <= 1 - tol -> elbow c = Some c.
Proof.
  intros H. pose proof tol_pos. apply Rabs_le_inv in H. unfold elbow. destruct (Rlt_dec (1 + tol) c); [lra|]. destruct (Rlt_dec c (- (1 + tol))); [lra|]. destruct (Rlt_dec (1 - tol) c); [lra|]. destruct (Rlt_dec c (- (1 - tol))); [lra|]. reflexivity.
Qed.
Lemma tee_rigid : rigid tee. Proof. split; cbn; auto. apply rotation_mid. Qed.
Lemma tee_centre : centre 0.115 tee = V3 0.8 (-0.2) 0.085.
Proof. unfold centre, tee. munf. apply vec3_eq; cbn [vx vy vz]; lra. Qed.
Lemma tee_lxy : 0.8246 <= lxy (V3 0.8 (-0.2) 0.085) <= 0.8247 /\ lxy (V3 0.8 (-0.2) 0.085) ^ 2 = 0.68.
Proof.
  assert (E : lxy (V3 0.8 (-0.2) 0.085) ^ 2 = 0.68) by (unfold lxy; rewrite sqrt_sum_sq; cbn [vx vy]; lra). split; auto. assert (0 <= lxy (V3 0.8 (-0.2) 0.085)) by apply sqrt_pos. nra.
Qed.
Lemma tee_elbow l : l = lxy (V3 0.8 (-0.2) 0.085) \/ l = - lxy (V3 0.8 (-0.2) 0.085) -> Rabs (elbow_cos 0.6 0.62 (l - 0.18) 0.085) <= 1 - tol.
Proof.
  destruct tee_lxy as [B E]. set (L := lxy _) in *. intros H. unfold elbow_cos, tol. apply Rabs_le.
  assert (K : -0.5 * (2 * 0.6 * 0.62) <= (l - 0.18) ^ 2 + 0.085 ^ 2 - 0.6 ^ 2 - 0.62 ^ 2 <= 0.5 * (2 * 0.6 * 0.62)) by (destruct H as [-> | ->]; nra).
  set (n := (l - 0.18) ^ 2 + 0.085 ^ 2 - 0.6 ^ 2 - 0.62 ^ 2) in *. assert (En : n / (2 * 0.6 * 0.62) * (2 * 0.6 * 0.62) = n) by (unfold Rdiv; rewrite Rmult_assoc, Rinv_l by lra; ring). lra.
Qed.
Lemma tee_unmount : unmount (k_rob kuka_object) tee = tee.
Proof.
  unfold unmount. cbn [k_rob kuka_object KukaG set_geom set_links Kuka robot_init r_tfb r_tool].
  assert (TI : tf_inverse eye4 = eye4) by (rewrite <- (tmul_1_l (tf_inverse eye4)); apply tf_inverse_r, rigid_eye). rewrite TI. apply tmul_1_l.
Qed.
Lemma ne6 : 0.6 * 0.62 <> 0. Proof. lra. Qed.
Lemma tee_rows q : In q (kuka_sols 0.18 0.6 0.62 0.115 tee) -> length q = 6%nat /\ snd (fk kuka6 q) = Ok tee.
Proof.
  intros I. apply in_flat_map in I. destruct I as (qa & Ha & I). rewrite tee_centre in Ha. apply (arm_sound 0.18 0.6 0.62 ne6) in Ha. destruct Ha as (q1 & q2 & u3 & -> & X1 & _ & l & Hl & X3).
  cbn [vz] in X3. assert (S3 : sin u3 <> 0) by (apply X3, tee_elbow; auto). specialize (X1 S3). clear X3.
  cbn [arm_wrist] in I. apply in_map_iff in I. destruct I as (qw & <- & I). set (f := q2 + (u3 + PI / 2)) in *. apply wrist_sound in I; [|apply rotation_mmul; [apply rotation_tr, arm2_rot_rotation|apply tee_rigid]].
  destruct I as (q4 & q5 & q6 & -> & W1 & W2). split; [reflexivity|].
  assert (Sf : sin f <> 0).
  { intros Z. rewrite <- kuka_centre_arm in X1. unfold kuka_centre in X1. fold f in X1. rewrite Z in X1. injection X1 as A1 A2 _. destruct tee_lxy as [B E]. pose proof (sin2_cos2 q1) as T. unfold Rsqr in T. pose proof (COS_bound q2) as C.
    set (w := 0.18 + 0.6 * cos q2 + 0.62 * 0) in *. assert (Ew : w * w = 0.68). { transitivity ((sin q1 * sin q1 + cos q1 * cos q1) * (w * w)); [rewrite T; ring|]. transitivity ((cos q1 * w) * (cos q1 * w) + (sin q1 * w) * (sin q1 * w)); [ring|]. rewrite A1, A2. lra. }
    assert (-0.42 <= w <= 0.78) by (unfold w; lra). nra. }
  assert (S5 : sin q5 <> 0). { apply W1. unfold arm2_rot, tee, mid. cbn [rot]. munf. assert (0 < sin f * sin f) by (destruct (Rdichotomy _ _ Sf); nra). nra. }
  specialize (W2 S5). change kuka6 with (k_rob kuka_object). cbn [app]. rewrite (kuka_fk_mount 0.18 0.6 0.62 0.115 (k_rob kuka_object)) by apply kuka_object_ok. f_equal.
  transitivity (mount (k_rob kuka_object) tee); [|rewrite <- (mount_unmount (k_rob kuka_object) tee) at 2 by (try apply rigid_eye; exact Logic.I); rewrite tee_unmount; reflexivity]. f_equal.
  destruct (kuka_form_centre 0.18 0.6 0.62 0.115 q1 q2 (u3 + PI / 2) q4 q5 q6) as (C1 & C2 & RF). set (F := kuka_form _ _ _ _ _ _ _ _ _ _) in *. fold f in C2.
  rewrite kuka_centre_arm, X1, <- tee_centre in C1. rewrite W2, <- mmul_assoc, rotation_inv_r, mmul_1_l in C2 by apply arm2_rot_rotation.
  destruct RF as [_ F1 F2]. apply mat4_eq; try (rewrite ?F1, ?F2; reflexivity); auto.
  unfold centre in C1. rewrite C2 in C1. revert C1. generalize (pos F) (pos tee) (vscale 0.115 (col2 (rot tee))). intros [x y z] [x' y' z'] [a b c]. unfold vsub, vadd, vopp. cbn [vx vy vz]. intros C1. injection C1 as -> -> -> || (injection C1 as Z1 Z2 Z3; apply vec3_eq; cbn [vx vy vz]; lra).
Qed.
Lemma tee_ik : snd (kuka_ik kuka_object tee) = Ok (IkOk (Own (kuka_sols 0.18 0.6 0.62 0.115 tee))) /\ length (kuka_sols 0.18 0.6 0.62 0.115 tee) = 8%nat.
Proof.
  assert (L : length (kuka_sols 0.18 0.6 0.62 0.115 tee) = 8%nat).
  { unfold kuka_sols. rewrite tee_centre. unfold arm_sols, branch. cbn [vz]. rewrite (elbow_plain _ (tee_elbow _ (or_introl eq_refl))), (elbow_plain _ (tee_elbow _ (or_intror eq_refl))). reflexivity. }
  split; auto. destruct (kuka_ik_spec 0.18 0.6 0.62 0.115 ne6 kuka_object tee kuka_object_ok) as (_ & _ & ->). rewrite tee_unmount. destruct (kuka_sols _ _ _ _ _); [discriminate|reflexivity].
Qed.

(** ** Building the problem does not raise *)
Lemma pose_built r scene q lamk muk : good r -> revolute r -> (ndof r <= length q)%nat -> Forall one_box (r_links r) ->
  exists cs, create_cc_for_joint_pose r (flat_map (fun l => get_polyhedrons (l_geom l)) (r_links r)) (get_polyhedrons scene) q lamk muk = Ok cs.
Proof.
  intros G V L H1. assert (J : joints_ok r) by (unfold joints_ok; eapply Forall_impl; [|exact V]; cbn; intros a ->; discriminate).
  unfold create_cc_for_joint_pose. rewrite frames_casadi_agree, frames_ok by auto. cbn [bind].
  match goal with |- context [mapM ?f (seq 0 (ndof r))] => destruct (mapM_total f (fun _ => True) (seq 0 (ndof r))) as (css & Ec & _) end; [|rewrite Ec; cbn [bind]; eauto].
  intros i Hi. apply in_seq in Hi. rewrite (py_index_nth _ i (frame r q i)) by (apply nth_error_frames; split; [lia|auto]). cbn [bind].
  destruct (nth_error (r_links r) i) as [l|] eqn:El; [|apply nth_error_None in El; unfold ndof in Hi; lia]. destruct (polys_nth _ i H1 l El) as (s & tf & _ & _ & EP).
  match goal with |- context [mapM ?f (seq 0 ?n)] => destruct (mapM_total f (fun _ => True) (seq 0 n)) as (cs & E & _) end; [|rewrite E; cbn [bind]; eauto].
  intros j Hj. apply in_seq in Hj. destruct (nth_error (get_polyhedrons scene) j) as [P|] eqn:Es; [|apply nth_error_None in Es; lia]. rewrite (py_index_nth _ _ _ EP), (py_index_nth _ _ _ Es). cbn [bind]. eauto.
Qed.
Lemma problem_built xyz r scene q lam mu : good r -> revolute r -> (1 <= ndof r <= 6)%nat -> Forall one_box (r_links r) -> Forall (fun p => (3 <= length p)%nat) xyz ->
  length q = length xyz -> Forall (fun row => length row = 6%nat) q -> exists cs, all_constraints xyz r scene q lam mu = Ok cs.
Proof.
  intros G V D H1 H3 L R6. assert (J : joints_ok r) by (unfold joints_ok; eapply Forall_impl; [|exact V]; cbn; intros a ->; discriminate).
  unfold all_constraints.
  assert (C : exists cc, (match scene with Some s => create_cc r s q lam mu | None => Ok [] end) = Ok cc).
  { destruct scene as [s|]; [|eauto]. unfold create_cc. destruct (r_links r) as [|l ls] eqn:El; [unfold ndof in D; rewrite El in D; cbn in D; lia|]. rewrite <- El in *.
    destruct (polys_nth _ 0 H1 l ltac:(rewrite El; reflexivity)) as (s0 & tf & _ & _ & E0). rewrite (py_index_nth _ _ _ E0). cbn [bind].
    match goal with |- context [mapM ?f (seq 0 ?n)] => destruct (mapM_total f (fun _ => True) (seq 0 n)) as (cs & E & _) end; [|rewrite E; cbn [bind]; eauto].
    intros k Hk. apply in_seq in Hk. destruct (nth_error q k) as [qk|] eqn:Eq; [|apply nth_error_None in Eq; lia]. rewrite (py_index_nth _ _ _ Eq). cbn [bind].
    rewrite Forall_forall in R6. pose proof (R6 qk (nth_error_In _ _ Eq)). destruct (pose_built r s qk (lam k) (mu k) G V ltac:(lia) H1) as [cs E]. eauto. }
  destruct C as [cc ->]. cbn [bind].
  match goal with |- context [mapM ?f (seq 0 ?n)] => destruct (mapM_total f (fun _ => True) (seq 0 n)) as (cs & E & _) end; [|rewrite E; cbn [bind]; eauto].
  intros k Hk. apply in_seq in Hk. destruct (nth_error q k) as [qk|] eqn:Eq; [|apply nth_error_None in Eq; lia]. destruct (nth_error xyz k) as [p|] eqn:Ep; [|apply nth_error_None in Ep; lia].
  rewrite (py_index_nth _ _ _ Eq), (py_index_nth _ _ _ Ep). cbn [bind]. unfold path_constraint. rewrite Forall_forall in R6. pose proof (R6 qk (nth_error_In _ _ Eq)). rewrite fk_casadi_agree, fk_ok by (auto; lia). cbn [bind].
  rewrite Forall_forall in H3. pose proof (H3 p (nth_error_In _ _ Ep)) as Lp. destruct p as [|x [|y [|z p]]]; cbn in Lp; try lia. cbn. eauto.
Qed.
Lemma path_built xyz r scene solver : good r -> revolute r -> (1 <= ndof r <= 6)%nat -> Forall one_box (r_links r) -> Forall (fun p => (3 <= length p)%nat) xyz ->
  get_optimal_path xyz r scene solver = match solver with None => Raise GenericException | Some (true, q) => Ok (OptOk q) | Some (false, _) => Ok OptFail end.
Proof.
  intros G V D H1 H3. destruct (problem_built xyz r scene (repeat (repeat 0 6) (length xyz)) (fun _ _ _ => []) (fun _ _ _ => []) G V D H1 H3) as [cs E]; [apply repeat_length| |].
  - apply Forall_forall. intros row I. apply repeat_spec in I. subst. apply repeat_length.
  - unfold get_optimal_path. rewrite E. reflexivity.
Qed.

(** ** The script *)
Definition rows8 : list (list R) := kuka_sols 0.18 0.6 0.62 0.115 tee.
Definition guess : list (list R) := repeat (nth 5 rows8 []) 15.
Lemma script_run solve : script solve = match solve guess with None => Raise GenericException | Some (true, q) => Ok q | Some (false, _) => Raise KeyError end.
Proof.
  unfold script. destruct tee_ik as [-> L]. cbn [bind read]. fold rows8 in L |- *. unfold q_inits.
  assert (E : nth_error rows8 5 = Some (nth 5 rows8 [])) by (apply nth_error_nth'; lia).
  rewrite (py_index_nth (map (fun qi => repeat qi 15) rows8) 5 guess) by (rewrite nth_error_map, E; reflexivity). cbn [bind]. destruct kuka6_facts as (A & B & C & D & _).
  rewrite path_built; auto; [|cbn; lia|].
  - destruct (solve guess) as [[[|] p]|]; reflexivity.
  - apply Forall_forall. intros p I. apply line_points in I. destruct I as (y & _ & ->). cbn. lia.
Qed.
Lemma guess_rows q : In q guess -> In q rows8.
Proof. intros I. apply repeat_spec in I. subst. apply nth_In. unfold rows8. rewrite (proj2 tee_ik). lia. Qed.
Lemma rows_unclear q : In q rows8 -> ~ clear_pose kuka6 scene1 q.
Proof.
  intros I. apply tee_rows in I. destruct I as [L E]. apply (up_unclear kuka6 q tee kukaG_good (same_links_refl _) rigid_eye eq_refl); auto; try lia; cbn [tee pos vx vy vz]; lra.
Qed.
Lemma rows_hit prim q : exact_prim prim -> In q rows8 -> snd (robot_collision prim kuka6 q scene1) = Ok true /\ ~ clear_pose kuka6 scene1 q.
Proof.
  intros P I. apply tee_rows in I. destruct I as [L E]. apply (up_hits prim kuka6 q tee P kukaG_good (same_links_refl _) rigid_eye eq_refl); auto; try lia; cbn [tee pos vx vy vz]; lra.
Qed.
Lemma guess_infeasible lam mu : ~ feasible (path_ori_free 15) kuka6 (Some scene1) guess lam mu.
Proof.
  intros F. destruct kuka6_facts as (A & B & C & D & F' & G & H & I). assert (X : exists lam mu, feasible (path_ori_free 15) kuka6 (Some scene1) guess lam mu) by eauto.
  apply (feasible_exact (path_ori_free 15) kuka6 scene1 guess A B C D F' G H I) in X. destruct X as (_ & _ & X). change guess with (nth 5 rows8 [] :: repeat (nth 5 rows8 []) 14) in X. inversion X as [|? ? X1 _]; subst.
  revert X1. apply rows_unclear. apply nth_In. unfold rows8. rewrite (proj2 tee_ik). lia.
Qed.
Lemma script_returns solve p : solver_sound (path_ori_free 15) kuka6 (Some scene1) (solve guess) -> script solve = Ok p ->
  length p = 15%nat /\ Forall (fun row => length row = 6%nat) p /\ Forall2 (at_point kuka6) (path_ori_free 15) p /\ Forall (clear_pose kuka6 scene1) p /\ p <> guess.
Proof.
  intros S E. rewrite script_run in E. destruct (solve guess) as [[[|] q]|] eqn:Es; try discriminate. injection E as ->. destruct (S p eq_refl) as (lam & mu & F).
  pose proof F as (L & _). destruct kuka6_facts as (A & B & C & D & F' & G & H & I). assert (X : exists lam mu, feasible (path_ori_free 15) kuka6 (Some scene1) p lam mu) by eauto.
  apply (feasible_exact (path_ori_free 15) kuka6 scene1 p A B C D F' G H I) in X. destruct X as (X1 & X2 & X3). split; [rewrite L; unfold path_ori_free; rewrite map_length; apply linspace_length|].
  repeat split; auto. intros ->. exact (guess_infeasible lam mu F).
Qed.
Lemma script_solvable : exists solve p, solver_sound (path_ori_free 15) kuka6 (Some scene1) (solve guess) /\ script solve = Ok p.
Proof.
  destruct (line_feasible 15) as (q & lam & mu & F). exists (fun _ => Some (true, q)), q. split; [|rewrite script_run; reflexivity]. intros q' E. injection E as <-. eauto.
Qed.
