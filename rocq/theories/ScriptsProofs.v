(** * Proofs about the scripts of examples/. *)
From Coq Require Import String Reals Lra Lia Psatz List Bool Arith ZArith.
From Verif Require FloatFkProofs ExamplesProofs.
From Verif Require Import PyBase Cost SpecPath GraphCommon CppGraph CppGraphProofs CppSearch CppHeap CppMain CppFinal CppExamples Mat Util UtilProofs HaltonProofs Geometry GeometryProofs Robot RobotProofs RobotForms Ik IkProofs KukaProofs RailProofs Path PathProofs Planning PlanningProofs PlanningCart PlanningIter Resources ResourcesProofs TaskProofs Pipeline PipelineProofs PipelineExamples Motion MotionKuka LocalIk Margin GridCover Resolution Turn Uniform UniformHalton Iterative IterativeProofs IterativeExamples OptScriptProofs Scripts ScriptsPose.
Import ListNotations.
Local Open Scope R_scope.

(** ** Frames near a frame with a regular clear solution have one *)
Section Near.
Context (a1 a2 d4 d6 : R) (Hne : a2 * d4 <> 0) (k : kuka) (Hk : kuka_ok a1 a2 d4 d6 k) (scene : coll) (Hs : solid (k_rob k)) (Hc : rigid_coll scene).
Definition solved (T : mat4) : Prop := exists q1 q2 q3 q4 q5 q6, snd (fk (k_rob k) [q1; q2; q3; q4; q5; q6]) = Ok T /\
  0 < lxy (kuka_centre a1 a2 d4 q1 q2 q3) /\ Rabs (sin q3) <= 1 - tol /\ sin q5 <> 0 /\ clear (k_rob k) scene [q1; q2; q3; q4; q5; q6].
Lemma near_solved q1 q2 q3 q4 q5 q6 T : rigid T -> snd (fk (k_rob k) [q1; q2; q3; q4; q5; q6]) = Ok T -> 0 < lxy (kuka_centre a1 a2 d4 q1 q2 q3) -> Rabs (sin q3) < 1 - tol -> sin q5 <> 0 ->
  clear (k_rob k) scene [q1; q2; q3; q4; q5; q6] -> exists d, 0 < d /\ forall T', rigid T' -> within_of d T T' -> solved T'.
Proof.
  intros RT Ef H1 H3 H5 C. pose proof (ko_rob _ _ _ _ _ Hk) as L. pose proof (proj1 Hs) as Hb. pose proof (solid_tool _ Hs) as Ht.
  assert (Na2 : a2 <> 0) by (intros Z; apply Hne; rewrite Z; ring). assert (Nd4 : d4 <> 0) by (intros Z; apply Hne; rewrite Z; ring).
  assert (Nr : reach a1 a2 d4 q2 q3 <> 0). { rewrite kuka_lxy in H1. intros Z. rewrite Z, Rabs_R0 in H1. lra. }
  assert (N3 : cos q3 <> 0). { intros Z. pose proof (sin2_cos2 q3) as S. unfold Rsqr in S. rewrite Z in S. assert (T3 : 0 < tol) by (unfold tol; lra). apply Rabs_def2 in H3. assert (sin q3 * sin q3 < 1) by nra. lra. }
  rewrite (kuka_fk_mount a1 a2 d4 d6) in Ef by auto. injection Ef as ET.
  destruct (regular_open a1 a2 d4 q1 q2 q3 q5 H1 H3 H5) as (e1 & He1 & Reg). destruct (clear_open _ _ _ Hs Hc C) as (e2 & He2 & Cl).
  set (e' := Rmin e1 e2). assert (He' : 0 < e') by (unfold e'; apply Rmin_glb_lt; auto). assert (D2 : e' <= e1) by apply Rmin_l. assert (D3 : e' <= e2) by apply Rmin_r.
  destruct (local_ik a1 a2 d4 d6 Na2 Nd4 q1 q2 q3 q4 q5 q6 Nr N3 H5 e' He') as (d & Hd & IK).
  destruct (within_of_unmount (k_rob k) (d / 2) Hb Ht ltac:(lra)) as (d' & Hd' & Un). exists d'. split; auto. intros T' RT' W.
  assert (PN : pose_near a1 a2 d4 d6 q1 q2 q3 q4 q5 q6 d (unmount (k_rob k) T')).
  { apply (within_of_near a1 a2 d4 d6 q1 q2 q3 q4 q5 q6 d (d / 2)); [auto|lra|]. pose proof (Un T T' RT RT' W) as U. rewrite <- ET, unmount_mount in U by auto. exact U. }
  destruct (IK _ PN (unmount_rigid _ _ Hb Ht RT')) as (p1 & p2 & p3 & p4 & p5 & p6 & EK & NJ).
  assert (NJ' : joints_within e' [q1; q2; q3; q4; q5; q6] [p1; p2; p3; p4; p5; p6]).
  { destruct (Forall2_6 _ _ _ _ _ _ _ _ NJ) as (? & ? & ? & ? & ? & ? & K & ? & ? & ? & ? & ? & ?). injection K as <- <- <- <- <- <-. repeat apply Forall2_cons; auto. }
  exists p1, p2, p3, p4, p5, p6. split. { rewrite (kuka_fk_mount a1 a2 d4 d6) by auto. rewrite EK, mount_unmount by auto. reflexivity. }
  destruct (Forall2_6r _ _ _ _ _ _ _ _ NJ') as (? & ? & ? & ? & ? & ? & K & N1 & N2 & N3' & N4 & N5 & N6). injection K as <- <- <- <- <- <-.
  destruct (Reg p1 p2 p3 p5) as (R1 & R2 & R3); try lra. split; [exact R1|]. split; [exact R2|]. split; [exact R3|]. apply Cl. eapply joints_within_le; eauto.
Qed.
Lemma solved_free prim T : exact_prim prim -> solved T -> kuka_free prim k scene T <> [].
Proof.
  intros X (q1 & q2 & q3 & q4 & q5 & q6 & E & H). set (samples := fun _ : pathpt => Ok [T]).
  destruct (reachable_candidate prim a1 a2 d4 d6 Hne k Hk scene samples (PFree [] []) X Hs Hc) as (q & Ts & T' & E1 & E2 & E3).
  { exists [T], T, q1, q2, q3, q4, q5, q6. split; [reflexivity|]. split; [left; reflexivity|]. auto. }
  injection E1 as <-. destruct E2 as [<-|[]]. intros Z. rewrite Z in E3. destruct E3.
Qed.
End Near.

(** ** Rows of random numbers near a row *)
Definition row_frame (p : vec3) (row : list R) : mat4 := match row with [r1; r2; r3] => M4 (qrot (quat_of r1 r2 r3)) p v0 1 | _ => eye4 end.
Lemma free_samples_rows ypr fuel n x y z rnd : pt_ok n (PFree [x; y; z] rnd) -> pt_samples ypr fuel n (PFree [x; y; z] rnd) = Ok (map (row_frame (V3 x y z)) (firstn n rnd)).
Proof.
  cbn [pt_ok]. intros (_ & L & U). unfold pt_samples, free_samples, sample_SO3. cbn [String.eqb Ascii.eqb Bool.eqb].
  destruct (Nat.ltb_spec (length rnd) n); [lia|]. cbn [bind]. clear L H.
  assert (U' : Forall unit_row (firstn n rnd)). { rewrite Forall_forall in *. intros r I. apply U. rewrite <- (firstn_skipn n rnd). apply in_or_app. auto. }
  revert U'. generalize (firstn n rnd). clear. induction l as [|r l IH]; intros U; [reflexivity|]. inversion U as [|? ? (r1 & r2 & r3 & -> & B) U']; subst. specialize (IH U'). cbn [mapM bind map].
  destruct (mapM _ l) as [qs| |]; cbn [bind] in *; try discriminate. cbn [map mapM]. change (set_pos (qtransform (quat_of r1 r2 r3)) [x; y; z]) with (Ok (row_frame (V3 x y z) [r1; r2; r3])). cbn [bind].
  destruct (mapM _ (map qtransform qs)) as [Ts| |]; cbn [bind] in *; try discriminate. injection IH as ->. reflexivity.
Qed.
Lemma row_rigid p row : unit_row row -> rigid (row_frame p row).
Proof. intros (r1 & r2 & r3 & -> & B). split; cbn; auto. apply qrot_rotation. rewrite quat_unit by auto. lra. Qed.
Lemma mat_near_len e A B u : 0 <= e -> mat_near e A B -> len (vsub (mapply A u) (mapply B u)) <= 9 * e * len u.
Proof.
  intros He H. destruct A as [a00 a01 a02 a10 a11 a12 a20 a21 a22], B as [b00 b01 b02 b10 b11 b12 b20 b21 b22]. unfold mat_near in H. cbn [m00 m01 m02 m10 m11 m12 m20 m21 m22] in H. destruct H as (H0 & H1 & H2 & H3 & H4 & H5 & H6 & H7 & H8).
  destruct (FloatFkProofs.len_comp u) as (L1 & L2 & L3). eapply Rle_trans; [apply FloatFkProofs.len_abs_le|]. set (l := len u) in *. clearbody l. destruct u as [x y z]. unfold vsub, mapply. cbn [m00 m01 m02 m10 m11 m12 m20 m21 m22 vx vy vz] in *.
  assert (K : forall a b c a' b' c', Rabs (a - a') <= e -> Rabs (b - b') <= e -> Rabs (c - c') <= e -> Rabs (a * x + b * y + c * z - (a' * x + b' * y + c' * z)) <= 3 * e * l).
  { intros a b c a' b' c' Ha Hb Hc. replace (a * x + b * y + c * z - (a' * x + b' * y + c' * z)) with ((a - a') * x + (b - b') * y + (c - c') * z) by ring.
    assert (P : forall d w, Rabs d <= e -> Rabs w <= l -> Rabs (d * w) <= e * l) by (intros d w Hd Hw; rewrite Rabs_mult; apply Rmult_le_compat; auto using Rabs_pos).
    pose proof (P _ _ Ha L1). pose proof (P _ _ Hb L2). pose proof (P _ _ Hc L3). eapply Rle_trans; [apply Rabs_triang|]. eapply Rle_trans; [apply Rplus_le_compat_r, Rabs_triang|]. lra. }
  pose proof (K _ _ _ _ _ _ H0 H1 H2). pose proof (K _ _ _ _ _ _ H3 H4 H5). pose proof (K _ _ _ _ _ _ H6 H7 H8). lra.
Qed.
(** the numbers of a rotation, and rows near them *)
Lemma row_near A : rotation A -> exists s, unit_row s /\ (forall p, row_frame p s = M4 A p v0 1) /\ forall d, 0 < d -> exists e, 0 < e /\ forall p row, unit_row row -> joints_within e s row -> within_of d (M4 A p v0 1) (row_frame p row).
Proof.
  intros RA. destruct (rotation_onto A RA) as (s1 & s2 & s3 & B1 & B2 & B3 & E). exists [s1; s2; s3]. split; [exists s1, s2, s3; auto|]. split; [intros p; cbn [row_frame]; rewrite E; reflexivity|].
  intros d Hd. pose proof PI_RGT_0 as P. set (g := d / 9 / 8 / 2). assert (Hg : 0 < g) by (unfold g; lra). set (e := Rmin (g ^ 2) (g / (2 * PI))).
  assert (He : 0 < e) by (apply Rmin_pos; [apply pow_lt; lra|apply Rdiv_lt_0_compat; lra]). exists e. split; auto. intros p row (r1 & r2 & r3 & -> & B) J.
  inversion J as [|? ? ? ? J1 J']; subst. inversion J' as [|? ? ? ? J2 J'']; subst. inversion J'' as [|? ? ? ? J3 _]; subst. clear J J' J''.
  assert (Q : quat_near (sqrt e + 2 * PI * e) (quat_of s1 s2 s3) (quat_of r1 r2 r3)).
  { apply quat_of_near; auto; rewrite Rabs_minus_sym; lra. }
  apply unit_rot_near in Q; [|apply quat_unit; auto..].
  assert (K : 8 * (sqrt e + 2 * PI * e) <= d / 9).
  { assert (K1 : sqrt e <= g) by (rewrite <- (sqrt_pow2 g) by lra; apply sqrt_le_1_alt, Rmin_l). assert (K2 : 2 * PI * e <= g) by (apply Rle_trans with (2 * PI * (g / (2 * PI))); [apply Rmult_le_compat_l; [lra|apply Rmin_r]|right; field; lra]). unfold g in *. lra. }
  assert (Z : 0 <= 8 * (sqrt e + 2 * PI * e)) by (pose proof (sqrt_pos e); assert (0 <= 2 * PI * e) by (apply Rmult_le_pos; lra); lra).
  cbn [row_frame]. split; cbn [pos rot].
  - unfold len, norm2, vdot, vsub. cbn [vx vy vz]. rewrite !Rminus_eq_0, Rmult_0_l, !Rplus_0_l, sqrt_0. lra.
  - intros u. rewrite <- (ExamplesProofs.qrot_unit _ (quat_unit s1 s2 s3 B1)), <- (ExamplesProofs.qrot_unit _ (quat_unit r1 r2 r3 B)) in Q. eapply Rle_trans; [apply (mat_near_len _ _ _ _ Z Q)|].
    apply Rmult_le_compat_r; [apply sqrt_pos|]. lra.
Qed.

(** ** The points of the line *)
(** the hand straight down, turned by t about the vertical *)
Definition down (t : R) : mat3 := M3 (cos t) (sin t) 0 (sin t) (- cos t) 0 0 0 (-1).
Lemma down_rotation t : rotation (down t).
Proof. replace (down t) with (mmul (rot_z t) (rot_x PI)); [apply rotation_mmul; [apply rot_z_rotation|apply rot_x_rotation]|]. unfold down, rot_z, rot_x. rewrite cos_PI, sin_PI. vring. Qed.
Lemma turned_down q1 q6 : mmul (arm2_rot q1 0) (rot_z q6) = down (q1 - q6).
Proof. unfold down, arm2_rot, rot_z. rewrite cos_0, sin_0, cos_minus, sin_minus. vring. Qed.
Lemma wrist_down q1 f q6 : mmul (arm2_rot q1 f) (zyz 0 (- f) q6) = down (q1 - q6).
Proof.
  rewrite <- turned_down. assert (E : zyz 0 (- f) q6 = mmul (rot_y (- f)) (rot_z q6)) by (unfold zyz; unfold rot_z at 1; rewrite cos_0, sin_0; generalize (rot_y (- f)) (rot_z q6); intros; vring). rewrite E.
  assert (F : mmul (arm2_rot q1 f) (rot_y (- f)) = arm2_rot q1 0).
  { unfold arm2_rot, rot_y. rewrite cos_neg, sin_neg, cos_0, sin_0. pose proof (sin2_cos2 f) as T. unfold Rsqr in T. unfold mmul. cbn [m00 m01 m02 m10 m11 m12 m20 m21 m22]. f_equal; try ring.
    - transitivity (cos q1 * (sin f * sin f + cos f * cos f)); [ring|rewrite T; ring].
    - transitivity (sin q1 * (sin f * sin f + cos f * cos f)); [ring|rewrite T; ring].
    - transitivity (- (sin f * sin f + cos f * cos f)); [ring|rewrite T; lra]. }
  rewrite <- F. generalize (arm2_rot q1 f) (rot_y (- f)) (rot_z q6). intros. vring.
Qed.
Definition low (scene : coll) : Prop := forall x, in_coll scene None x -> 0.55 <= vx x /\ vz x <= 0.171.
Lemma point_down t y scene : -0.2 <= y <= 0.2 -> low scene -> exists q1 q2 q3 q4 q5 q6, snd (fk (k_rob kuka_object) [q1; q2; q3; q4; q5; q6]) = Ok (M4 (down t) (V3 0.8 y 0.2) v0 1) /\
  0 < lxy (kuka_centre 0.18 0.6 0.62 q1 q2 q3) /\ Rabs (sin q3) < 1 - tol /\ sin q5 <> 0 /\ clear (k_rob kuka_object) scene [q1; q2; q3; q4; q5; q6].
Proof.
  intros Hy Lw. set (l := sqrt (0.8 ^ 2 + y ^ 2)). assert (El : l ^ 2 = 0.8 ^ 2 + y ^ 2) by apply sqrt_sum_sq. assert (L0 : 0 <= l) by apply sqrt_pos. assert (L : 0.8 <= l <= 0.825) by nra.
  destruct (reach_down l L) as (q2 & f & Er & Ez & C2 & S2 & Cf). set (q1 := atan2 y 0.8). destruct (polar 0.8 y) as [P1 P2]. fold l q1 in P1, P2.
  exists q1, q2, (f - q2), 0, (- f), (q1 - t).
  assert (S1 : Rabs (sin q1) <= 0.25) by (apply Rabs_le; assert (-0.2 <= sin q1 * l <= 0.2) by lra; nra).
  pose proof (COS_bound f) as Bf. pose proof (SIN_bound f) as Bf'. pose proof (SIN_bound q2) as B2. pose proof (sin2_cos2 f) as Uf. unfold Rsqr in Uf.
  split; [|split; [|split; [|split]]].
  - rewrite (kuka_fk_mount 0.18 0.6 0.62 0.115) by apply (ko_rob _ _ _ _ _ kuka_object_ok). f_equal.
    unfold mount, tooled. cbn [r_tool k_rob kuka_object KukaG set_geom set_links Kuka robot_init r_tfb]. rewrite tmul_1_l. unfold kuka_form. cbv zeta. replace (q2 + (f - q2)) with f by ring. rewrite wrist_down. replace (q1 - (q1 - t)) with t by ring.
    unfold kuka_centre. replace (q2 + (f - q2)) with f by ring. rewrite Er, Ez. unfold down, col2. cbn [m02 m12 m22]. unfold vadd, vscale. cbn [vx vy vz]. f_equal. f_equal; lra.
  - rewrite kuka_lxy. unfold reach. replace (q2 + (f - q2)) with f by ring. rewrite Er. apply Rabs_pos_lt. lra.
  - rewrite sin_minus. apply Rabs_def1; unfold tol; nra.
  - rewrite sin_neg. nra.
  - apply down_clear_scene; auto. lra.
Qed.
(** one row of numbers, and all near it, are right for every point of the line *)
Lemma line_rows (t : R) : exists s, unit_row s /\ forall scene (ys : list R), low scene -> rigid_coll scene -> Forall (fun y => -0.2 <= y <= 0.2) ys ->
  exists d, 0 < d /\ forall y row, In y ys -> unit_row row -> joints_within d s row -> solved 0.18 0.6 0.62 kuka_object scene (row_frame (V3 0.8 y 0.2) row).
Proof.
  destruct (row_near (down t) (down_rotation t)) as (s & Us & _ & Nr). exists s. split; auto. intros scene ys Lw Rc By. rewrite Forall_forall in By.
  destruct (fin_margin (fun d y => forall row, unit_row row -> joints_within d s row -> solved 0.18 0.6 0.62 kuka_object scene (row_frame (V3 0.8 y 0.2) row)) ys) as (d & Hd & D).
  - intros m m' y Hm K row U J. apply K; auto. eapply joints_within_le; eauto.
  - intros y Iy. destruct (point_down t y scene (By y Iy) Lw) as (q1 & q2 & q3 & q4 & q5 & q6 & Ef & H1 & H3 & H5 & C).
    destruct (near_solved 0.18 0.6 0.62 0.115 default_ne kuka_object kuka_object_ok scene kuka_object_solid Rc q1 q2 q3 q4 q5 q6 (M4 (down t) (V3 0.8 y 0.2) v0 1)) as (d & Hd & K); auto; [split; cbn; auto; apply down_rotation|].
    destruct (Nr d Hd) as (e & He & N). exists e. split; auto. intros row U J. apply K; [apply row_rigid; auto|apply N; auto].
  - exists d. split; auto.
Qed.
