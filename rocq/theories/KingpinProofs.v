(** * Lemmas about the path and the scene of kingpin.py (C135). *)
From Coq Require Import Reals Lra Psatz Lia List Bool Arith ZArith.
From Verif Require Import PyBase Mat Util UtilProofs HaltonProofs Geometry GeometryProofs Robot RobotProofs RobotForms Ik IkProofs KukaProofs RailProofs Path PathProofs Resources ResourcesProofs TaskProofs Pipeline PipelineProofs Mount Kingpin.
Import ListNotations.
Local Open Scope R_scope.

(** ** The points of the path *)
(** the seam: the inner edge of the two plates, k-th of N places *)
Definition kp_seam (N k : nat) : vec3 := V3 0.84 (-0.25 + 0.5 * par N k) 0.11.
(** the k-th position, 2 cm away from the seam *)
Definition kp_place (N k : nat) : vec3 := V3 (0.84 - 0.02 / sqrt 2) (-0.25 + 0.5 * par N k) (0.11 + 0.02 / sqrt 2).
Definition kp_pt_ok (P : vec3) (p : eulerpt) : Prop :=
  nominal_transform p = Ok (M4 (rot_xyz 0 (3 * PI / 4) 0) P v0 1) /\
  exists l, euler_samples p = Ok l /\ length l = 600%nat /\
  forall T, In T l <-> exists i j, (i < 20)%nat /\ (j < 30)%nat /\ T = M4 (rot_xyz 0 (PI / 2 + INR i / 19 * (PI / 2)) (- PI / 2 + INR j / 29 * PI)) P v0 1.
Lemma grid_tol t n x : t_samples t = Z.of_nat (S (S n)) -> on_grid (Tol t) x <-> exists k, (k < S (S n))%nat /\ x = t_lower t + INR k / INR (S n) * (t_upper t - t_lower t).
Proof.
  intros E. unfold on_grid, count. rewrite E, Nat2Z.id. replace (S (S n) - 1)%nat with (S n) by lia. split.
  - intros [[-> _]|(k & K & _ & ->)]; [exists 0%nat; split; [lia|]; cbn [INR]; unfold Rdiv; ring|exists k; auto].
  - intros (k & K & ->). right. exists k. split; auto. split; [lia|auto].
Qed.
Lemma kp_point_ok s : exists p, kp_point s = Ok p /\ kp_pt_ok (V3 (0.84 - 0.02 / sqrt 2) (-0.25 + 0.5 * s) (0.11 + 0.02 / sqrt 2)) p.
Proof.
  pose proof PI_RGT_0 as PP. unfold kp_point. cbv zeta. set (v := vadd _ _).
  assert (Ev : V3 (vx v) (vy v) (vz v) = V3 (0.84 - 0.02 / sqrt 2) (-0.25 + 0.5 * s) (0.11 + 0.02 / sqrt 2)).
  { unfold v, vadd, vscale, kp_start, kp_stop, kp_offset, kp_start, kp_xpos, kp_ypos, kp_zpos, kp_width, kp_tickness, kp_lenght. cbn [vadd vx vy vz]. unfold Rdiv. set (w := / sqrt 2). apply vec3_eq; cbn [vx vy vz]; lra. }
  clearbody v. unfold new_tol. destruct (Rlt_dec (PI * 3 / 4) (PI / 2)); [lra|]. destruct (Rlt_dec PI (PI * 3 / 4)); [lra|]. cbn [bind].
  set (t1 := TN (PI / 2) PI _ 20). set (t2 := TN (- PI / 2) (PI / 2) _ 30).
  destruct (proj2 (new_eulerpt_Ok [Fix (vx v); Fix (vy v); Fix (vz v)] [Fix 0; Tol t1; Tol t2])) as [p Ep]; [cbn; lia|]. exists p. split; auto. split.
  - rewrite (proj1 (euler_nominal _ _ _ _ _ _ _ _ _ Ep)). unfold frame6, t1, t2. cbn [nominal_of t_nominal]. rewrite Ev.
    replace (PI * 3 / 4) with (3 * PI / 4) by lra. replace (- PI / 2 + (PI / 2 - - PI / 2) / 2) with 0 by lra. reflexivity.
  - destruct (euler_spec _ _ _ _ _ _ _ _ _ Ep) as (l & El & Ll & Hl); [repeat constructor; cbn; lia|]. exists l. split; auto. split; [exact Ll|]. intros T. rewrite Hl. clear Hl.
    assert (G1 : forall x, on_grid (Tol t1) x <-> exists k, (k < 20)%nat /\ x = PI / 2 + INR k / 19 * (PI / 2)).
    { intros x. rewrite (grid_tol t1 18 x eq_refl). cbn [t_lower t_upper t1]. replace (INR 19) with 19 by (cbn; lra). split; intros (k & K & ->); exists k; (split; [auto|]); lra. }
    assert (G2 : forall x, on_grid (Tol t2) x <-> exists k, (k < 30)%nat /\ x = - PI / 2 + INR k / 29 * PI).
    { intros x. rewrite (grid_tol t2 28 x eq_refl). cbn [t_lower t_upper t2]. replace (INR 29) with 29 by (cbn; lra). split; intros (k & K & ->); exists k; (split; [auto|]); lra. }
    split.
    + intros (x & y & z & a & b & c & F & ->). apply Forall2_6 in F. destruct F as (x' & y' & z' & a' & b' & c' & Eq & F1 & F2 & F3 & F4 & F5 & F6). injection Eq as <- <- <- <- <- <-. cbn in F1, F2, F3, F4. subst.
      apply G1 in F5. apply G2 in F6. destruct F5 as (i & Hi & ->). destruct F6 as (j & Hj & ->). exists i, j. split; auto. split; auto. unfold frame6. rewrite Ev. reflexivity.
    + intros (i & j & Hi & Hj & ->). exists (vx v), (vy v), (vz v), 0, (PI / 2 + INR i / 19 * (PI / 2)), (- PI / 2 + INR j / 29 * PI). split; [|unfold frame6; rewrite Ev; reflexivity].
      repeat (apply Forall2_cons; [first [reflexivity|apply G1; exists i; auto|apply G2; exists j; auto]|]). constructor.
Qed.
Lemma kp_path_ok N : exists l, kp_path N = Ok l /\ length l = N /\ forall k p, nth_error l k = Some p -> kp_pt_ok (kp_place N k) p.
Proof.
  unfold kp_path. destruct (mapM_ex kp_point (fun s p => kp_pt_ok (V3 (0.84 - 0.02 / sqrt 2) (-0.25 + 0.5 * s) (0.11 + 0.02 / sqrt 2)) p) (linspace 0 1 N)) as (l & E & F).
  { intros t _. apply kp_point_ok. }
  exists l. split; auto. split; [rewrite <- (Forall2_length F); apply linspace_length|]. intros k p Ek. destruct (Forall2_nth_r _ _ _ _ _ F Ek) as (t & Et & H). apply linspace01 in Et. destruct Et as [_ ->]. auto.
Qed.
(** T is sample (i, j) of point k of N *)
Definition kp_sample (N k i j : nat) : mat4 := M4 (rot_xyz 0 (PI / 2 + INR i / 19 * (PI / 2)) (- PI / 2 + INR j / 29 * PI)) (kp_place N k) v0 1.
Lemma kp_samples N T : sample_of kp_path N T <-> exists k i j, (k < N)%nat /\ (i < 20)%nat /\ (j < 30)%nat /\ T = kp_sample N k i j.
Proof.
  destruct (kp_path_ok N) as (l & E & L & H). split.
  - intros (l' & p & ss & E' & Ip & Es & IT). rewrite E in E'. injection E' as <-. apply In_nth_error in Ip. destruct Ip as [k Ek]. destruct (H k p Ek) as (_ & ss' & Es' & _ & HT). rewrite Es in Es'. injection Es' as <-.
    apply HT in IT. destruct IT as (i & j & Hi & Hj & ->). exists k, i, j. split; [rewrite <- L; apply nth_error_Some; congruence|]. auto.
  - intros (k & i & j & Hk & Hi & Hj & ->). destruct (nth_error l k) as [p|] eqn:Ek; [|apply nth_error_None in Ek; lia]. destruct (H k p Ek) as (_ & ss & Es & _ & HT). exists l, p, ss. split; auto. split; [eapply nth_error_In; eauto|]. split; auto. apply HT. exists i, j. auto.
Qed.

(** ** Clearance and aim *)
Lemma half2 : 0 < 0.02 / sqrt 2 < 0.0142.
Proof.
  pose proof (sqrt_lt_R0 2 ltac:(lra)) as S. assert (Q : sqrt 2 * sqrt 2 = 2) by (apply sqrt_sqrt; lra). assert (L : 1.414 < sqrt 2). { destruct (Rlt_le_dec 1.414 (sqrt 2)); auto. assert (sqrt 2 * sqrt 2 <= 1.414 * 1.414) by (apply Rmult_le_compat; lra). lra. }
  split; [apply Rdiv_lt_0_compat; lra|]. apply Rmult_lt_reg_r with (sqrt 2); auto. unfold Rdiv. rewrite Rmult_assoc, Rinv_l; lra.
Qed.
Lemma half2_low : 0.0141 < 0.02 / sqrt 2.
Proof.
  pose proof (sqrt_lt_R0 2 ltac:(lra)) as S. assert (Q : sqrt 2 * sqrt 2 = 2) by (apply sqrt_sqrt; lra). assert (L : sqrt 2 < 1.4143). { destruct (Rlt_le_dec (sqrt 2) 1.4143); auto. assert (1.4143 * 1.4143 <= sqrt 2 * sqrt 2) by (apply Rmult_le_compat; lra). lra. }
  apply Rmult_lt_reg_r with (sqrt 2); auto. unfold Rdiv. rewrite Rmult_assoc, Rinv_l; lra.
Qed.
Lemma in_kp_scene y : in_coll kp_scene None y <->
  (0.35 <= vx y <= 0.85 /\ -0.25 <= vy y <= 0.25 /\ 0 <= vz y <= 0.1) \/
  (0.75 <= vx y <= 0.85 /\ -0.25 <= vy y <= 0.25 /\ 0.1 <= vz y <= 0.11) \/
  (0.84 <= vx y <= 0.85 /\ -0.25 <= vy y <= 0.25 /\ 0.11 <= vz y <= 0.21) \/
  (0.75 <= vx y <= 0.8 /\ -0.05 <= vy y <= 0.05 /\ 0.11 <= vz y <= 0.16).
Proof.
  assert (B : forall s x y0 z p, in_box s (tf_at mid (V3 x y0 z)) p <-> x - dx s / 2 <= vx p <= x + dx s / 2 /\ y0 - dy s / 2 <= vy p <= y0 + dy s / 2 /\ z - dz s / 2 <= vz p <= z + dz s / 2).
  { intros s x y0 z p. split; [apply shifted_box; reflexivity|]. intros (Hx & Hy & Hz). exists (V3 (vx p - x) (vy p - y0) (vz p - z)). split.
    - unfold local_in. cbn [vx vy vz]. repeat split; apply Rabs_le; lra.
    - destruct p as [a b c]. unfold tf_at, tapply, mapply, mid, vadd. cbn [rot pos vx vy vz m00 m01 m02 m10 m11 m12 m20 m21 m22]. apply vec3_eq; cbn [vx vy vz]; ring. }
  split.
  - intros (s & T & (i & Es & ET) & H). cbn [place] in H. unfold kp_scene in Es, ET. cbn [c_s c_tf] in Es, ET.
    destruct i as [|[|[|[|i]]]]; [| | | |destruct i; discriminate]; cbn [nth_error] in Es, ET; injection Es as <-; injection ET as <-; apply B in H; cbn [dx dy dz] in H; unfold kp_xpos, kp_ypos, kp_zpos, kp_width, kp_tickness, kp_lenght, kp_height in H; lra.
  - intros H. assert (A : forall i s T, nth_error (c_s kp_scene) i = Some s -> nth_error (c_tf kp_scene) i = Some T -> in_box s T y -> in_coll kp_scene None y) by (intros i s T E1' E2' Hb; exists s, T; split; [exists i; auto|exact Hb]).
    destruct H as [H|[H|[H|H]]]; [apply (A 0%nat _ _ eq_refl eq_refl)|apply (A 1%nat _ _ eq_refl eq_refl)|apply (A 2%nat _ _ eq_refl eq_refl)|apply (A 3%nat _ _ eq_refl eq_refl)]; apply B; cbn [dx dy dz]; unfold kp_xpos, kp_ypos, kp_zpos, kp_width, kp_tickness, kp_lenght, kp_height; lra.
Qed.
Lemma kp_clear N T : sample_of kp_path N T -> clear_by (0.02 / sqrt 2) kp_scene (pos T).
Proof.
  intros H y Y. apply kp_samples in H. destruct H as (k & i & j & K & _ & _ & ->). unfold kp_sample, kp_place. cbn [pos]. apply in_kp_scene in Y. pose proof half2 as [h0 h1]. set (h := 0.02 / sqrt 2) in *. clearbody h.
  destruct Y as [Y|[Y|[Y|Y]]]; [apply far_z|apply far_z|apply far_x|apply far_x]; cbn [vx vy vz]; try lra; apply le_Rabs; lra.
Qed.
Lemma kp_aim N : exists l, kp_path N = Ok l /\ length l = N /\ forall k p, nth_error l k = Some p ->
  exists T, nominal_transform p = Ok T /\ vadd (pos T) (vscale 0.02 (col2 (rot T))) = kp_seam N k.
Proof.
  destruct (kp_path_ok N) as (l & E & L & H). exists l. split; auto. split; auto. intros k p Ek. destruct (H k p Ek) as (En & _). eexists. split; [exact En|]. cbn [pos rot]. rewrite rot_xyz_col2, sin_0, cos_0. destruct cos_3PI4 as [-> ->].
  unfold kp_place, kp_seam, vadd, vscale. cbn [vx vy vz]. unfold Rdiv. apply vec3_eq; cbn [vx vy vz]; ring.
Qed.
(** no sample aims at the seam: an even number of angles misses the middle *)
Lemma kp_no_aim N T k : sample_of kp_path N T -> ~ aims_at T (kp_seam N k).
Proof.
  intros H (s & S & E). apply kp_samples in H. destruct H as (k' & i & j & _ & Hi & _ & ->). unfold kp_sample in E. cbn [pos rot] in E. rewrite rot_xyz_col2, sin_0, cos_0 in E. set (b := PI / 2 + INR i / 19 * (PI / 2)) in *.
  unfold kp_place, kp_seam, vadd, vscale in E. cbn [vx vy vz] in E. injection E as Ex _ Ez.
  assert (D : s * (sin b + cos b) = 0) by lra. assert (D' : sin b = - cos b) by (apply Rmult_integral in D; lra).
  pose proof PI_RGT_0 as PP. assert (Hb : PI / 2 <= b <= PI). { unfold b. assert (0 <= INR i / 19 <= 1). { pose proof (pos_INR i). assert (INR i <= 19) by (replace 19 with (INR 19) by (cbn; lra); apply le_INR; lia). lra. } assert (0 <= INR i / 19 * (PI / 2) <= 1 * (PI / 2)) by (split; [apply Rmult_le_pos; lra|apply Rmult_le_compat_r; lra]). lra. }
  assert (Z : sin (b - 3 * PI / 4) = 0) by (rewrite sin_minus; destruct cos_3PI4 as [-> ->]; rewrite D'; ring).
  assert (b = 3 * PI / 4).
  { destruct (Rtotal_order b (3 * PI / 4)) as [C|[C|C]]; auto.
    - assert (0 < sin (3 * PI / 4 - b)) by (apply sin_gt_0; lra). replace (3 * PI / 4 - b) with (- (b - 3 * PI / 4)) in * by ring. rewrite sin_neg in *. lra.
    - assert (0 < sin (b - 3 * PI / 4)) by (apply sin_gt_0; lra). lra. }
  unfold b in H. assert (INR i / 19 = 1 / 2) by (apply Rmult_eq_reg_r with (PI / 2); lra). assert (I2 : INR (2 * i) = INR 19) by (rewrite mult_INR; cbn; lra). apply INR_eq in I2. lia.
Qed.
(** every sample points into the corner, or along one of its sides *)
Lemma kp_into N T : sample_of kp_path N T -> vy (col2 (rot T)) = 0 /\ 0 <= vx (col2 (rot T)) /\ vz (col2 (rot T)) <= 0.
Proof.
  intros H. apply kp_samples in H. destruct H as (k & i & j & _ & Hi & _ & ->). unfold kp_sample. cbn [rot]. rewrite rot_xyz_col2, sin_0, cos_0. cbn [vx vy vz]. set (b := PI / 2 + _).
  pose proof PI_RGT_0 as PP. assert (Hb : PI / 2 <= b <= PI). { unfold b. assert (0 <= INR i / 19 <= 1). { pose proof (pos_INR i). assert (INR i <= 19) by (replace 19 with (INR 19) by (cbn; lra); apply le_INR; lia). lra. } assert (0 <= INR i / 19 * (PI / 2) <= 1 * (PI / 2)) by (split; [apply Rmult_le_pos; lra|apply Rmult_le_compat_r; lra]). lra. }
  split; [ring|]. split; [apply sin_ge_0; lra|]. rewrite Rmult_1_l. apply cos_le_0; lra.
Qed.

(** ** The torch beside the obstacle *)
(** the wire reaches from 1 to 11 cm behind the tip *)
Lemma wire_line M P s : vadd (vadd (mapply M (V3 (0.05 + 0.01) 0 0)) P) (vscale (- s) (col2 (mmul M (M3 0 0 1 0 1 0 (- 1) 0 0)))) = vadd (mapply M (V3 (0.06 - s) 0 0)) P.
Proof. destruct M as [a b c d e f g h i]. destruct P as [u v w]. unfold vadd, vscale, mapply, col2, mmul. cbn [vx vy vz m00 m01 m02 m10 m11 m12 m20 m21 m22]. apply vec3_eq; cbn [vx vy vz]; lra. Qed.
Lemma wire_points F s : rigid F -> 0.01 <= s <= 0.11 -> in_coll (fst torch) (Some F) (vadd (pos (tmul F tool_tip)) (vscale (- s) (col2 (rot (tmul F tool_tip))))).
Proof.
  intros HF Hs. exists (Shape 0.10 0.025 0.025), wire. split; [exists 4%nat; split; reflexivity|]. cbn [place]. exists (V3 (0.06 - s) 0 0). split.
  - unfold local_in. cbn [vx vy vz dx dy dz]. repeat split; apply Rabs_le; lra.
  - rewrite tip_form, <- tmul_assoc. set (W := tmul F wire). assert (RW : rigid W) by (apply rigid_tmul; auto; apply wire_rigid). unfold tip_local. rewrite block_last by auto. cbn [pos rot]. unfold rot_y. rewrite cos_PI2, sin_PI2. rewrite wire_line. reflexivity.
Qed.
Lemma col2_norm A : rotation A -> vx (col2 A) ^ 2 + vy (col2 A) ^ 2 + vz (col2 A) ^ 2 = 1.
Proof.
  intros [H _]. destruct A as [a b c d e f g h i]. unfold mmul, mtr, mid in H. cbn [m00 m01 m02 m10 m11 m12 m20 m21 m22] in H. injection H as _ _ _ _ _ _ _ _ H. unfold col2. cbn [vx vy vz m02 m12 m22]. lra.
Qed.
(** beside the obstacle the wire of a flat torch runs into it *)
Definition beside (P : vec3) : Prop := vx P = 0.84 - 0.02 / sqrt 2 /\ -0.05 <= vy P <= 0.05 /\ vz P = 0.11 + 0.02 / sqrt 2.
Definition flat (a : vec3) : Prop := vy a = 0 /\ 0 <= vx a /\ vz a <= 0 /\ - vz a <= 1.38 * vx a.
Lemma kp_flat F : rigid F -> beside (pos (tmul F tool_tip)) -> flat (col2 (rot (tmul F tool_tip))) ->
  exists x, in_coll (fst torch) (Some F) x /\ in_coll kp_scene None x.
Proof.
  intros HF. pose proof (wire_points F) as W. assert (RT : rigid (tmul F tool_tip)) by (apply rigid_tmul; auto; apply torch_rigid). pose proof (col2_norm _ (rigid_rot _ RT)) as U. clear RT.
  destruct (pos (tmul F tool_tip)) as [px py pz]. destruct (col2 (rot (tmul F tool_tip))) as [ax ay az]. unfold beside, flat. cbn [vx vy vz] in *. intros (Px & Py & Pz) (-> & Ax & Az & As). pose proof half2 as [h0 h1]. pose proof half2_low as h2. set (h := 0.02 / sqrt 2) in *. clearbody h.
  assert (Z2 : az ^ 2 <= (1.38 * ax) ^ 2) by (replace (az ^ 2) with ((- az) ^ 2) by ring; apply pow_incr; lra).
  assert (A0 : 0.5 <= ax). { destruct (Rle_lt_dec 0.5 ax); auto. assert (ax ^ 2 <= 0.5 ^ 2) by (apply pow_incr; lra). lra. }
  assert (A1 : ax <= 1). { destruct (Rle_lt_dec ax 1); auto. assert (1 * 1 < ax * ax) by (apply Rmult_gt_0_lt_compat; lra). pose proof (pow2_ge_0 az). lra. }
  set (s := (0.04 - h) / ax). assert (Hs : s * ax = 0.04 - h) by (unfold s; field; lra). clearbody s.
  assert (S0 : 0.01 <= s). { destruct (Rle_lt_dec 0.01 s); auto. assert (s * ax <= 0.01 * ax) by (apply Rmult_le_compat_r; lra). lra. }
  assert (S1 : s <= 0.06). { apply Rmult_le_reg_r with ax; lra. }
  eexists. split; [apply (W s); auto; lra|].
  apply in_kp_scene. right. right. right. unfold vadd, vscale. cbn [vx vy vz]. assert (0 <= s * - az) by (apply Rmult_le_pos; lra). assert (s * - az <= s * (1.38 * ax)) by (apply Rmult_le_compat_l; lra). lra.
Qed.
Lemma low_angle t : 4 * PI / 19 <= t <= PI / 2 -> cos t <= 1.38 * sin t.
Proof.
  intros [H1 H2]. pose proof PI_RGT_0 as PP. pose proof PI2_3_2 as P3. pose proof PI_4 as P4.
  assert (C : cos t <= cos 0.63) by (apply cos_decr_1; lra). assert (S : sin 0.63 <= sin t) by (apply sin_incr_1; lra).
  assert (C6 : cos 0.63 <= 0.8082).
  { destruct (pre_cos_bound 0.63 0) as [_ CU]; try lra. eapply Rle_trans; [exact CU|]. unfold cos_approx, cos_term. cbn [sum_f_R0 pow Nat.mul Nat.add]. replace (INR (fact 0)) with 1 by reflexivity. replace (INR (fact 2)) with 2 by (cbn; lra). replace (INR (fact 4)) with 24 by (cbn; lra). lra. }
  assert (S6 : 0.588 <= sin 0.63).
  { destruct (pre_sin_bound 0.63 0) as [SL _]; try lra. eapply Rle_trans; [|exact SL]. unfold sin_approx, sin_term. cbn [sum_f_R0 pow Nat.mul Nat.add]. replace (INR (fact 1)) with 1 by reflexivity. replace (INR (fact 3)) with 6 by (cbn; lra). lra. }
  lra.
Qed.
Lemma kp_flat_sample N k i j : (i <= 11)%nat -> flat (col2 (rot (kp_sample N k i j))).
Proof.
  intros Hi. unfold kp_sample. cbn [rot]. rewrite rot_xyz_col2, sin_0, cos_0. unfold flat. cbn [vx vy vz]. pose proof PI_RGT_0 as PP. set (t := PI / 2 - INR i / 19 * (PI / 2)).
  assert (Ht : 4 * PI / 19 <= t <= PI / 2). { unfold t. pose proof (pos_INR i). assert (INR i <= 11) by (replace 11 with (INR 11) by (cbn; lra); apply le_INR; lia). assert (0 <= INR i * (PI / 38) <= 11 * (PI / 38)) by (split; [apply Rmult_le_pos; lra|apply Rmult_le_compat_r; lra]). lra. }
  replace (PI / 2 + INR i / 19 * (PI / 2)) with (PI - t) by (unfold t; lra). rewrite sin_PI_x. replace (cos (PI - t)) with (- cos t) by (rewrite cos_minus, cos_PI, sin_PI; ring).
  pose proof (low_angle t Ht). assert (0 <= cos t) by (apply cos_ge_0; lra). assert (0 <= sin t) by (apply sin_ge_0; lra). lra.
Qed.
(** k is one of the points beside the obstacle *)
Definition at_obstacle (N k : nat) : Prop := 0.4 <= par N k <= 0.6.
Lemma kp_robot_hits prim r q N k i j : exact_prim prim -> good r -> joints_ok r -> solid r -> (1 <= ndof r <= length q)%nat -> r_tool r = Some torch ->
  snd (fk r q) = Ok (kp_sample N k i j) -> at_obstacle N k -> (i <= 11)%nat -> snd (robot_collision prim r q kp_scene) = Ok true.
Proof.
  intros X G J SO L Et E A Hi. destruct (collision_correct prim r q kp_scene G J ltac:(lia) ltac:(lia)) as (b & Eb & _). rewrite Eb. f_equal. destruct b; auto. exfalso.
  assert (RS : rigid_coll kp_scene) by (unfold rigid_coll, kp_scene; cbn [c_tf]; repeat (apply Forall_cons; [apply tf_at_rigid, mid_rotation|]); constructor).
  assert (H : hit prim r kp_scene q = false) by (unfold hit; rewrite Eb; reflexivity). apply free_iff_clear in H; auto. destruct H as [H _].
  rewrite fk_ok in E by (auto; lia). unfold tooled in E. rewrite Et in E. change torch with (fst torch, tool_tip) in E. destruct (ndof r) as [|n] eqn:En; [lia|].
  assert (E' : tmul (frame r q n) tool_tip = kp_sample N k i j) by congruence. clear E.
  destruct (kp_flat (frame r q n)) as (x & X1 & X2).
  - apply frame_rigid. apply SO.
  - rewrite E'. unfold kp_sample, kp_place, beside. cbn [pos vx vy vz]. unfold at_obstacle in A. split; [reflexivity|]. split; [lra|reflexivity].
  - rewrite E'. apply kp_flat_sample; auto.
  - apply (H x); auto. right. right. exists (fst torch), tool_tip. split; [rewrite Et; reflexivity|]. rewrite En. replace (S n - 1)%nat with n by lia. exact X1.
Qed.
(** the robot of the example, on a base from which joint values of zero reach T *)
Definition rebased (r : robot) (B : mat4) : robot := Rb (r_links r) (r_limits r) (r_base r) (r_tool r) B (r_mat r) (r_self r) (r_prio r).
Lemma fold_base (l : list (link * R)) B T : fold_left (fun T p => tmul T (lspec (fst p) (snd p))) l (tmul B T) = tmul B (fold_left (fun T p => tmul T (lspec (fst p) (snd p))) l T).
Proof. revert T. induction l as [|p l IH]; intros T; cbn [fold_left]; auto. rewrite tmul_assoc. apply IH. Qed.
Definition zeros : list R := repeat 0 6.
Definition reach (T : mat4) : mat4 := tmul T (tf_inverse (tmul (frame kp_robot zeros 5) tool_tip)).
Lemma kp_case N k i j : let r := rebased kp_robot (reach (kp_sample N k i j)) in
  good r /\ joints_ok r /\ solid r /\ ndof r = 6%nat /\ r_tool r = Some torch /\ snd (fk r zeros) = Ok (kp_sample N k i j).
Proof.
  intros r. set (T := kp_sample N k i j) in *. assert (RT : rigid T) by (unfold T, kp_sample; split; cbn; auto; apply rot_xyz_rotation). destruct torch_rigid as [TR TT].
  assert (RF : rigid (tmul (frame kp_robot zeros 5) tool_tip)) by (apply rigid_tmul; auto; apply frame_rigid, rigid_eye).
  assert (G : good r) by (split; [unfold r; geoms; repeat constructor|apply Permutation.Permutation_refl]). destruct (kuka_rigid 0.18 0.6 0.62 0.115) as [KR KJ].
  assert (J : joints_ok r) by exact KJ. split; auto. split; auto. split; [split; [apply rigid_tmul; auto; apply tf_inverse_rigid; auto|]; split; [exact KR|]; split; [discriminate|]; intros tool tip E; injection E as <- <-; auto|]. split; [reflexivity|]. split; [reflexivity|].
  rewrite fk_ok by (auto; cbn; lia). change (ndof r) with 6%nat. cbn [Nat.sub]. unfold tooled. change (r_tool r) with (Some (fst torch, tool_tip)).
  assert (E : frame r zeros 5 = tmul (reach T) (frame kp_robot zeros 5)).
  { unfold frame. rewrite <- fold_base. change (r_links r) with (r_links kp_robot). change (r_tfb r) with (reach T). change (r_tfb kp_robot) with eye4. rewrite tmul_1_r. reflexivity. }
  cbv beta iota. rewrite E. unfold reach. rewrite !tmul_assoc. rewrite tf_inverse_l by auto. rewrite tmul_1_r. reflexivity.
Qed.
(** ** The torch pointing down *)
Ltac facts := replace (INR (fact 0)) with 1 by reflexivity; replace (INR (fact 1)) with 1 by reflexivity; replace (INR (fact 2)) with 2 by (cbn; lra); replace (INR (fact 3)) with 6 by (cbn; lra);
  replace (INR (fact 4)) with 24 by (cbn; lra); replace (INR (fact 5)) with 120 by (rewrite INR_IZR_INZ; reflexivity); replace (INR (fact 6)) with 720 by (rewrite INR_IZR_INZ; reflexivity); replace (INR (fact 8)) with 40320 by (rewrite INR_IZR_INZ; reflexivity).
Lemma PI_low : 3.12 < PI.
Proof.
  assert (C : 0 < cos 1.56). { destruct (pre_cos_bound 1.56 1) as [CL _]; try lra. eapply Rlt_le_trans; [|exact CL]. unfold cos_approx, cos_term. cbn [sum_f_R0 pow Nat.mul Nat.add]. facts. lra. }
  pose proof PI2_3_2. pose proof PI_4. destruct (Rlt_le_dec 3.12 PI); auto. assert (cos 1.56 <= 0) by (apply cos_le_0; lra). lra.
Qed.
Lemma PI_high : PI < 3.16.
Proof.
  assert (C : cos 1.58 < 0). { destruct (pre_cos_bound 1.58 1) as [_ CU]; try lra. eapply Rle_lt_trans; [exact CU|]. unfold cos_approx, cos_term. cbn [sum_f_R0 pow Nat.mul Nat.add]. facts. lra. }
  destruct (Rlt_le_dec PI 3.16); auto. assert (0 <= cos 1.58) by (apply cos_ge_0; lra). lra.
Qed.
Lemma sin_range x : 0 <= x <= 1 -> x - x ^ 3 / 6 <= sin x <= x - x ^ 3 / 6 + x ^ 5 / 120.
Proof.
  intros H. destruct (pre_sin_bound x 0) as [SL SU]; try lra. split.
  - eapply Rle_trans; [|exact SL]. unfold sin_approx, sin_term. cbn [sum_f_R0 Nat.mul Nat.add]. facts. lra.
  - eapply Rle_trans; [exact SU|]. unfold sin_approx, sin_term. cbn [sum_f_R0 Nat.mul Nat.add]. facts. lra.
Qed.
Lemma cos_range x : 0 <= x <= 1 -> 1 - x ^ 2 / 2 <= cos x <= 1 - x ^ 2 / 2 + x ^ 4 / 24.
Proof.
  intros H. destruct (pre_cos_bound x 0) as [CL CU]; try lra. split.
  - eapply Rle_trans; [|exact CL]. unfold cos_approx, cos_term. cbn [sum_f_R0 Nat.mul Nat.add]. facts. lra.
  - eapply Rle_trans; [exact CU|]. unfold cos_approx, cos_term. cbn [sum_f_R0 Nat.mul Nat.add]. facts. lra.
Qed.
Lemma a2_range : 0.846 <= cos angle2 <= 0.86 /\ -0.527 <= sin angle2 <= -0.515.
Proof.
  pose proof PI_low. pose proof PI_high. set (a := - angle2). assert (Ha : 0.546 <= a <= 0.553) by (unfold a, angle2; lra). replace angle2 with (- a) by (unfold a; ring). rewrite cos_neg, sin_neg.
  pose proof (sin_range a ltac:(lra)) as S. pose proof (cos_range a ltac:(lra)) as C. clearbody a.
  assert (0.546 ^ 2 <= a ^ 2 <= 0.553 ^ 2) by (split; apply pow_incr; lra). assert (0.546 ^ 3 <= a ^ 3 <= 0.553 ^ 3) by (split; apply pow_incr; lra). assert (a ^ 5 <= 0.553 ^ 5) by (apply pow_incr; lra). assert (a ^ 4 <= 0.553 ^ 4) by (apply pow_incr; lra). lra.
Qed.
Lemma a1_range : 0.19 <= sin angle1 <= 0.2 /\ cos angle1 <= 1.
Proof.
  pose proof PI_low. pose proof PI_high. assert (Ha : 0.195 <= angle1 <= 0.199) by (unfold angle1; lra). pose proof (sin_range angle1 ltac:(lra)) as S. pose proof (COS_bound angle1). assert (0.195 ^ 3 <= angle1 ^ 3 <= 0.199 ^ 3) by (split; apply pow_incr; lra). assert (angle1 ^ 5 <= 0.199 ^ 5) by (apply pow_incr; lra). lra.
Qed.
Lemma wire_coords X Y Z : tapply tf_tool (tapply tf_rotate (V3 X Y Z)) = tapply wire
  (V3 (cos angle2 * (X - 0.25) + sin angle2 * (Y - (0.15 + sin angle2 * 0.05))) (- sin angle2 * (X - 0.25) + cos angle2 * (Y - (0.15 + sin angle2 * 0.05))) Z).
Proof.
  pose proof tf_tool_rigid. pose proof tf_rotate_rigid. pose proof (rot_z_rotation angle2). unfold wire. rewrite tapply_tmul, tapply_tmul by (try apply rigid_tmul; auto using tf_at_rigid). f_equal. f_equal.
  unfold tf_at, tapply, mapply, rot_z, pos_data, vadd. cbn [rot pos vx vy vz m00 m01 m02 m10 m11 m12 m20 m21 m22]. pose proof (sin2_cos2 angle2) as E. unfold Rsqr in E. set (s := sin angle2) in *. set (c := cos angle2) in *. clearbody s c.
  apply vec3_eq; cbn [vx vy vz].
  - replace (c * (c * (X - 0.25) + s * (Y - (0.15 + s * 0.05))) + - s * (- s * (X - 0.25) + c * (Y - (0.15 + s * 0.05))) + 0 * Z + 0.25) with ((s * s + c * c) * (X - 0.25) + 0.25) by ring. rewrite E. ring.
  - replace (s * (c * (X - 0.25) + s * (Y - (0.15 + s * 0.05))) + c * (- s * (X - 0.25) + c * (Y - (0.15 + s * 0.05))) + 0 * Z + (0.15 + s * 0.05)) with ((s * s + c * c) * (Y - (0.15 + s * 0.05)) + (0.15 + s * 0.05)) by ring. rewrite E. ring.
  - ring.
Qed.
Definition wire_shape : shape := Shape 0.10 0.025 0.025.
Lemma behind X Y : (X <= 0.083 /\ -0.055 <= Y) \/ (X <= 0.1 /\ -0.035 <= Y) \/ (X <= 0.2 /\ 0.1375 <= Y) ->
  cos angle2 * (X - 0.25) + sin angle2 * (Y - (0.15 + sin angle2 * 0.05)) <= -0.042.
Proof.
  intros H. destruct a2_range as [C S]. set (s := - sin angle2) in *. replace (sin angle2) with (- s) in * by (unfold s; ring). set (c := cos angle2) in *. clearbody s c.
  assert (S2 : 0.515 * 0.515 <= s * s) by (apply Rmult_le_compat; lra).
  assert (K : forall u v, 0 <= u -> X <= 0.25 - u -> 0.15 - v <= Y -> c * (X - 0.25) + - s * (Y - (0.15 + - s * 0.05)) <= - (0.846 * u) + s * v - 0.05 * (0.515 * 0.515)).
  { intros u v Hu HX HY. assert (c * u <= c * (0.25 - X)) by (apply Rmult_le_compat_l; lra). assert (0.846 * u <= c * u) by (apply Rmult_le_compat_r; lra). assert (s * (0.15 - Y) <= s * v) by (apply Rmult_le_compat_l; lra). lra. }
  destruct H as [[H1 H2]|[[H1 H2]|[H1 H2]]].
  - eapply Rle_trans; [apply (K 0.167 0.205); lra|]. lra.
  - eapply Rle_trans; [apply (K 0.15 0.185); lra|]. lra.
  - eapply Rle_trans; [apply (K 0.05 0.0125); lra|]. lra.
Qed.

(** the torch in the coordinates of its wire: outside the wire everything is at least 10 cm behind the tip *)
Lemma torch_behind p : in_coll (fst torch) None p -> exists w, p = tapply wire w /\ (local_in wire_shape w \/ vx w <= -0.042).
Proof.
  intros (s & T & (i & Es & ET) & l & Hl & ->). cbn [place]. unfold torch in Es, ET. cbn [fst c_s c_tf] in Es, ET. unfold torch_shapes, torch_tfs in *. cbn [map] in ET.
  pose proof tf_tool_rigid. pose proof tf_rotate_rigid. pose proof mid_rotation. pose proof (rot_z_rotation angle2).
  destruct i as [|[|[|[|[|i]]]]]; [| | | | |destruct i; discriminate]; cbn [nth_error] in Es, ET; injection Es as <-; injection ET as <-; [| | | |exists l; split; [reflexivity|left; exact Hl]];
    destruct l as [x y z]; destruct Hl as (Hx & Hy & Hz); cbn [dx dy dz vx vy vz] in *; apply Rabs_le_inv' in Hx, Hy.
  - rewrite tapply_tmul by auto using tf_at_rigid. unfold tf_at, tapply at 2, mapply, mid, pos_data, vadd. cbn [rot pos vx vy vz m00 m01 m02 m10 m11 m12 m20 m21 m22].
    set (x' := 1 * x + 0 * y + 0 * z + 0.035). set (y' := 0 * x + 1 * y + 0 * z + 0). set (z' := 0 * x + 0 * y + 1 * z + 0). assert (Bx : -0.005 <= x' <= 0.075) by (unfold x'; lra). assert (By : -0.04 <= y' <= 0.04) by (unfold y'; lra). clearbody x' y' z'.
    set (s1 := sin angle1). set (c1 := cos angle1).
    assert (E : V3 x' y' z' = tapply tf_rotate (V3 (c1 * x' + s1 * y') (- s1 * x' + c1 * y') z')).
    { unfold tf_rotate, tf_at, tapply, mapply, rot_z, v0, vadd. cbn [rot pos vx vy vz m00 m01 m02 m10 m11 m12 m20 m21 m22]. fold s1 c1. pose proof (sin2_cos2 angle1) as E. unfold Rsqr in E. fold s1 c1 in E. apply vec3_eq; cbn [vx vy vz].
      - replace (c1 * (c1 * x' + s1 * y') + - s1 * (- s1 * x' + c1 * y') + 0 * z' + 0) with ((s1 * s1 + c1 * c1) * x') by ring. rewrite E. ring.
      - replace (s1 * (c1 * x' + s1 * y') + c1 * (- s1 * x' + c1 * y') + 0 * z' + 0) with ((s1 * s1 + c1 * c1) * y') by ring. rewrite E. ring.
      - ring. }
    rewrite E, wire_coords. eexists. split; [reflexivity|]. right. cbn [vx]. apply behind. left. destruct a1_range as [S C]. fold s1 in S. fold c1 in C. assert (0.96 <= c1) by apply cos_a1_strong. clearbody s1 c1.
    assert (P1 : c1 * x' <= c1 * 0.075) by (apply Rmult_le_compat_l; lra). assert (P2 : s1 * y' <= s1 * 0.04) by (apply Rmult_le_compat_l; lra). assert (P3 : s1 * x' <= s1 * 0.075) by (apply Rmult_le_compat_l; lra). assert (P4 : c1 * - y' <= c1 * 0.04) by (apply Rmult_le_compat_l; lra). lra.
  - rewrite tapply_tmul, (tapply_tmul tf_rotate) by (try apply rigid_tmul; auto using tf_at_rigid). unfold tf_at, tapply at 3, mapply, mid, pos_data, vadd. cbn [rot pos vx vy vz m00 m01 m02 m10 m11 m12 m20 m21 m22]. rewrite wire_coords.
    eexists. split; [reflexivity|]. right. cbn [vx]. apply behind. lra.
  - rewrite tapply_tmul, (tapply_tmul tf_rotate) by (try apply rigid_tmul; auto using tf_at_rigid). unfold tf_at, tapply at 3, mapply, mid, pos_data, vadd. cbn [rot pos vx vy vz m00 m01 m02 m10 m11 m12 m20 m21 m22]. rewrite wire_coords.
    eexists. split; [reflexivity|]. right. cbn [vx]. apply behind. lra.
  - rewrite tapply_tmul, (tapply_tmul tf_rotate) by (try apply rigid_tmul; auto using tf_at_rigid). unfold tf_at, tapply at 3, mapply, mid, pos_data, vadd. cbn [rot pos vx vy vz m00 m01 m02 m10 m11 m12 m20 m21 m22]. rewrite wire_coords.
    eexists. split; [reflexivity|]. right. cbn [vx]. apply behind. lra.
Qed.
(** the frame of the tip pointing down, the torch along the plates *)
Lemma down_axes N k j l : j = 0%nat \/ j = 29%nat -> exists e, (e = 1 \/ e = -1) /\ tapply (kp_sample N k 19 j) l = vadd (kp_place N k) (V3 (e * vy l) (e * vx l) (- vz l)).
Proof.
  intros Hj. unfold kp_sample. replace (PI / 2 + INR 19 / 19 * (PI / 2)) with PI by (replace (INR 19) with 19 by (cbn; lra); lra). destruct l as [x y z]. destruct (kp_place N k) as [px py pz]. destruct Hj as [->| ->].
  - exists (-1). split; [auto|]. replace (- PI / 2 + INR 0 / 29 * PI) with (- (PI / 2)) by (cbn; lra). unfold rot_xyz, rot_x, rot_y, rot_z. rewrite cos_neg, sin_neg, cos_PI2, sin_PI2, cos_PI, sin_PI, cos_0, sin_0.
    unfold tapply, mapply, mmul, vadd. cbn [rot pos vx vy vz m00 m01 m02 m10 m11 m12 m20 m21 m22]. apply vec3_eq; cbn [vx vy vz]; ring.
  - exists 1. split; [auto|]. replace (- PI / 2 + INR 29 / 29 * PI) with (PI / 2) by (replace (INR 29) with 29 by (cbn; lra); lra). unfold rot_xyz, rot_x, rot_y, rot_z. rewrite cos_PI2, sin_PI2, cos_PI, sin_PI, cos_0, sin_0.
    unfold tapply, mapply, mmul, vadd. cbn [rot pos vx vy vz m00 m01 m02 m10 m11 m12 m20 m21 m22]. apply vec3_eq; cbn [vx vy vz]; ring.
Qed.
Lemma kp_scene_rigid : rigid_coll kp_scene.
Proof. unfold rigid_coll, kp_scene; cbn [c_tf]; repeat (apply Forall_cons; [apply tf_at_rigid, mid_rotation|]); constructor. Qed.
Lemma tip_coords w : w = tapply tip_local (V3 (- vz w) (vy w) (vx w - 0.06)).
Proof. destruct w as [x y z]. unfold tip_local, rot_y. rewrite cos_PI2, sin_PI2. unfold tapply, mapply, vadd. cbn [rot pos vx vy vz m00 m01 m02 m10 m11 m12 m20 m21 m22]. apply vec3_eq; cbn [vx vy vz]; lra. Qed.
Lemma tip_local_rigid : rigid tip_local.
Proof. split; cbn; auto. apply rot_y_rotation. Qed.
Lemma kp_down_free prim N k j F : exact_prim prim -> j = 0%nat \/ j = 29%nat -> rigid F -> tmul F tool_tip = kp_sample N k 19 j -> is_in_collision prim (fst torch) kp_scene (Some F) None = false.
Proof.
  intros X Hj HF ET. destruct (is_in_collision prim (fst torch) kp_scene (Some F) None) eqn:C; auto. exfalso.
  apply collision_points in C; auto; [|apply torch_rigid|apply kp_scene_rigid|cbn; auto]. destruct C as (x & Hx & Hs). apply torch_local in Hx; auto. destruct Hx as (p & -> & Hp). apply torch_behind in Hp. destruct Hp as (w & -> & Hw).
  pose proof wire_rigid. pose proof tip_local_rigid. rewrite (tip_coords w) in Hs. rewrite <- (tapply_tmul wire), <- tip_form, <- tapply_tmul, ET in Hs by (auto; apply torch_rigid).
  destruct (down_axes N k j (V3 (- vz w) (vy w) (vx w - 0.06)) Hj) as (e & He & E). rewrite E in Hs. clear E. apply in_kp_scene in Hs. unfold kp_place, vadd in Hs. cbn [vx vy vz] in Hs. pose proof half2 as [h0 h1]. pose proof half2_low as h2. set (h := 0.02 / sqrt 2) in *. clearbody h.
  destruct Hw as [(W1 & W2 & W3)|W]; [|lra]. unfold wire_shape in *. cbn [dx dy dz] in *. apply Rabs_le_inv' in W1, W2, W3. destruct He as [-> | ->]; lra.
Qed.
Lemma kp_down_case : exists F, rigid F /\ tmul F (snd torch) = kp_sample 10 4 19 0.
Proof.
  destruct torch_rigid as [_ TT]. exists (tmul (kp_sample 10 4 19 0) (tf_inverse (snd torch))). split; [apply rigid_tmul; [split; cbn; auto; apply rot_xyz_rotation|apply tf_inverse_rigid; auto]|]. rewrite tmul_assoc, tf_inverse_l by auto. apply tmul_1_r.
Qed.
