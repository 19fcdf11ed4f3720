(** * Lemmas about the torch in the scenes of examples/ (C157, C158). *)
From Coq Require Import String Reals Lra Psatz Lia List Bool Arith ZArith.
From Verif Require PlanningIter.
From Verif Require Import PyBase Mat Util UtilProofs Geometry GeometryProofs Robot RobotProofs RobotForms Ik IkProofs KukaProofs RailProofs Path PathProofs Resources ResourcesProofs TaskProofs Extents Io Pipeline PipelineProofs Mount Kingpin KingpinProofs Motion MotionGap Cost CppGraph Planning Dp DpProofs Examples ExamplesProofs OptimDual PipelineExamples ErrorProofs3 Gui GuiProofs GuiKuka GuiFiles Urdf UrdfProofs Tasks TasksProofs.
Import ListNotations.
Local Open Scope R_scope.

(** ** The nozzle *)
(** what of w is along and across the torch: from 1 to 11 cm behind the tip everything within 12.5 mm of the axis is nozzle *)
Lemma nozzle F w : rigid F -> let T := tmul F tool_tip in 0.01 <= - vdot w (col2 (rot T)) <= 0.11 -> norm2 w - vdot w (col2 (rot T)) ^ 2 <= 0.00015625 ->
  in_coll (fst torch) (Some F) (vadd (pos T) w).
Proof.
  intros HF T Hs Hn. exists (Shape 0.10 0.025 0.025), wire. split; [exists 4%nat; split; reflexivity|]. cbn [place].
  unfold T in *. clear T. rewrite tip_form, <- tmul_assoc in *. set (W := tmul F wire) in *. assert (RW : rigid W) by (apply rigid_tmul; auto; apply wire_rigid).
  pose proof (rotation_inv_r _ (rigid_rot _ RW)) as O1. pose proof (rot_orth _ (rigid_rot _ RW)) as O2. unfold tip_local in *. rewrite block_last in * by auto. cbn [pos rot] in *. unfold rot_y in *. rewrite cos_PI2, sin_PI2 in *.
  destruct W as [M P b c]. cbn [rot pos] in *. clear RW. exists (vadd (V3 0.06 0 0) (mapply (mtr M) w)). split.
  - assert (E : norm2 (mapply (mtr M) w) = norm2 w).
    { unfold norm2. rewrite vdot_mapply, mtr_mtr, <- mapply_mmul, O1, mapply_1. reflexivity. }
    assert (A : vx (mapply (mtr M) w) = vdot w (col2 (mmul M (M3 0 0 1 0 1 0 (Ropp 1) 0 0)))) by (clear; destruct M as [a e d f g h i j k]; destruct w as [x y z]; munf; ring).
    destruct (mapply (mtr M) w) as [x y z]. cbn [vx] in A. rewrite <- A in Hs, Hn. rewrite <- E in Hn. clear - Hs Hn. munf. unfold local_in. cbn [vx vy vz dx dy dz].
    assert (K : forall t, t * t <= 0.00015625 -> Rabs (0 + t) <= 0.025 / 2). { intros t Ht. apply Rabs_le. split; nra. }
    split; [apply Rabs_le; lra|]. split; apply K; nra.
  - unfold tapply. cbn [rot pos]. assert (E : mapply M (vadd (V3 0.06 0 0) (mapply (mtr M) w)) = vadd (mapply M (V3 0.06 0 0)) w).
    { rewrite mapply_add, <- mapply_mmul, O1, mapply_1. reflexivity. }
    rewrite E. replace (0.05 + 0.01) with 0.06 by lra. generalize (mapply M (V3 0.06 0 0)). intros u. destruct u as [u1 u2 u3], P as [p1 p2 p3], w as [w1 w2 w3]. unfold vadd. apply vec3_eq; cbn [vx vy vz]; ring.
Qed.
(** a robot holding the torch is in collision when every place of the torch with that tip is *)
Lemma torch_hits prim r q scene T : exact_prim prim -> good r -> joints_ok r -> solid r -> (1 <= ndof r <= length q)%nat -> r_tool r = Some torch -> rigid_coll scene ->
  snd (fk r q) = Ok T -> (forall F, rigid F -> tmul F tool_tip = T -> exists x, in_coll (fst torch) (Some F) x /\ in_coll scene None x) ->
  snd (robot_collision prim r q scene) = Ok true.
Proof.
  intros X G J SO L Et RS E HT. destruct (collision_correct prim r q scene G J ltac:(lia) ltac:(lia)) as (b & Eb & _). rewrite Eb. f_equal. destruct b; auto. exfalso.
  assert (H : hit prim r scene q = false) by (unfold hit; rewrite Eb; reflexivity). apply free_iff_clear in H; auto. destruct H as [H _].
  rewrite fk_ok in E by (auto; lia). unfold tooled in E. rewrite Et in E. change torch with (fst torch, tool_tip) in E. destruct (ndof r) as [|n] eqn:En; [lia|].
  assert (E' : tmul (frame r q n) tool_tip = T) by congruence. clear E.
  destruct (HT (frame r q n)) as (x & X1 & X2); [apply frame_rigid; apply SO|exact E'|].
  apply (H x); auto. right. right. exists (fst torch), tool_tip. split; [rewrite Et; reflexivity|]. rewrite En. replace (S n - 1)%nat with n by lia. exact X1.
Qed.
Lemma axis_unit F : rigid F -> norm2 (col2 (rot (tmul F tool_tip))) = 1.
Proof. intros HF. assert (RT : rigid (tmul F tool_tip)) by (apply rigid_tmul; auto; apply torch_rigid). pose proof (col2_norm _ (rigid_rot _ RT)) as U. unfold norm2, vdot. lra. Qed.

(** ** An edge between a floor and a wall *)
(** in the corner of a floor below 0 and a wall behind p no direction leaves room for the nozzle *)
Definition edge (inside : vec3 -> Prop) (P : vec3) : Prop := forall x, Rabs (vx x - vx P) <= 0.023 -> Rabs (vy x - vy P) <= 0.023 ->
  (vz P - 0.01 <= vz x <= vz P \/ (vy x <= vy P /\ vz P <= vz x <= vz P + 0.04)) -> inside x.
Lemma edge_hits F inside : rigid F -> edge inside (pos (tmul F tool_tip)) -> exists x, in_coll (fst torch) (Some F) x /\ inside x.
Proof.
  intros HF H. pose proof (nozzle F) as W. pose proof (axis_unit F HF) as U. cbv zeta in W. specialize (fun w => W w HF).
  destruct (pos (tmul F tool_tip)) as [px py pz]. destruct (col2 (rot (tmul F tool_tip))) as [ax ay az].
  assert (W' : forall x y z, 0.01 <= - (x * ax + y * ay + z * az) <= 0.11 -> x * x + y * y + z * z - (x * ax + y * ay + z * az) ^ 2 <= 0.00015625 -> in_coll (fst torch) (Some F) (V3 (px + x) (py + y) (pz + z))) by (intros x y z; exact (W (V3 x y z))).
  unfold norm2, vdot in U. cbn [vx vy vz] in U. clear W. unfold edge in H. cbn [vx vy vz] in H.
  assert (H' : forall x y z, Rabs x <= 0.023 -> Rabs y <= 0.023 -> (-0.01 <= z <= 0 \/ (y <= 0 /\ 0 <= z <= 0.04)) -> inside (V3 (px + x) (py + y) (pz + z))).
  { intros x y z Hx Hy Hz. apply H; cbn [vx vy vz]; [replace (px + x - px) with x by ring; auto|replace (py + y - py) with y by ring; auto|lra]. }
  clear H. assert (M : forall x y z, 0.01 <= - (x * ax + y * ay + z * az) <= 0.11 -> x * x + y * y + z * z - (x * ax + y * ay + z * az) ^ 2 <= 0.00015625 ->
    Rabs x <= 0.023 -> Rabs y <= 0.023 -> (-0.01 <= z <= 0 \/ (y <= 0 /\ 0 <= z <= 0.04)) -> exists x, in_coll (fst torch) (Some F) x /\ inside x) by (intros x y z; eauto). clear W' H'.
  assert (Bd : forall t, t * t <= 1 -> -1 <= t <= 1) by (clear; intros t Ht; split; nra).
  assert (Bx : -1 <= ax <= 1) by (apply Bd; nra). assert (By : -1 <= ay <= 1) by (apply Bd; nra). assert (Bz : -1 <= az <= 1) by (apply Bd; nra). clear Bd.
  assert (St : (-0.01 <= -0.01 * az <= 0 \/ (-0.01 * ay <= 0 /\ 0 <= -0.01 * az <= 0.04)) -> exists x, in_coll (fst torch) (Some F) x /\ inside x).
  { intros Hz. apply (M (-0.01 * ax) (-0.01 * ay) (-0.01 * az)); [nra|nra|apply Rabs_le; lra|apply Rabs_le; lra|exact Hz]. }
  (* b = - a *)
  destruct (Rle_lt_dec 0 az) as [Z0|Z0]; [apply St; lra|]. destruct (Rle_lt_dec 0 ay) as [Y0|Y0]; [apply St; lra|]. clear St.
  destruct (Rle_lt_dec ay az) as [C|C].
  - (* 0 < b_z <= b_y *)
    assert (D : 0.5 <= 1 - az * az) by nra. set (c := (0.001 - 0.01 * az) / (1 - az * az)). assert (Ec : c * (1 - az * az) = 0.001 - 0.01 * az) by (unfold c; field; lra). clearbody c.
    assert (A1 : - az <= 0.7072) by nra. assert (C0 : 0 <= c) by nra. assert (C1 : c <= 0.0162) by nra.
    assert (E0 : (-0.01 * ax + c * az * ax) * ax + (-0.01 * ay + c * az * ay) * ay + (-0.01 * az - c * (1 - az * az)) * az = -0.01).
    { replace ((-0.01 * ax + c * az * ax) * ax + (-0.01 * ay + c * az * ay) * ay + (-0.01 * az - c * (1 - az * az)) * az) with ((-0.01 + c * az) * (ax * ax + ay * ay + az * az) - c * az) by ring. rewrite U. ring. }
    apply (M (-0.01 * ax + c * az * ax) (-0.01 * ay + c * az * ay) (-0.01 * az - c * (1 - az * az))); rewrite ?E0.
    + lra.
    + replace ((-0.01 * ax + c * az * ax) * (-0.01 * ax + c * az * ax) + (-0.01 * ay + c * az * ay) * (-0.01 * ay + c * az * ay) + (-0.01 * az - c * (1 - az * az)) * (-0.01 * az - c * (1 - az * az)) - (-0.01) ^ 2) with
        ((-0.01 + c * az) * (-0.01 + c * az) * (ax * ax + ay * ay + az * az) - 2 * (-0.01 + c * az) * c * az + c * c - (-0.01) * (-0.01)) by ring.
      rewrite U. replace ((-0.01 + c * az) * (-0.01 + c * az) * 1 - 2 * (-0.01 + c * az) * c * az + c * c - (-0.01) * (-0.01)) with (c * (c * (1 - az * az))) by ring. rewrite Ec. nra.
    + apply Rabs_le. assert (-0.0114566 <= c * az <= 0) by nra. nra.
    + apply Rabs_le. assert (-0.0114566 <= c * az <= 0) by nra. nra.
    + left. rewrite Ec. lra.
  - assert (D : 0.5 <= 1 - ay * ay) by nra. set (c := (0.001 - 0.01 * ay) / (1 - ay * ay)). assert (Ec : c * (1 - ay * ay) = 0.001 - 0.01 * ay) by (unfold c; field; lra). clearbody c.
    assert (A1 : - ay <= 0.7072) by nra. assert (C0 : 0 <= c) by nra. assert (C1 : c <= 0.0162) by nra.
    assert (E0 : (-0.01 * ax + c * ay * ax) * ax + (-0.01 * ay - c * (1 - ay * ay)) * ay + (-0.01 * az + c * ay * az) * az = -0.01).
    { replace ((-0.01 * ax + c * ay * ax) * ax + (-0.01 * ay - c * (1 - ay * ay)) * ay + (-0.01 * az + c * ay * az) * az) with ((-0.01 + c * ay) * (ax * ax + ay * ay + az * az) - c * ay) by ring. rewrite U. ring. }
    assert (Bc : -0.0114566 <= c * ay <= 0) by nra.
    apply (M (-0.01 * ax + c * ay * ax) (-0.01 * ay - c * (1 - ay * ay)) (-0.01 * az + c * ay * az)); rewrite ?E0.
    + lra.
    + replace ((-0.01 * ax + c * ay * ax) * (-0.01 * ax + c * ay * ax) + (-0.01 * ay - c * (1 - ay * ay)) * (-0.01 * ay - c * (1 - ay * ay)) + (-0.01 * az + c * ay * az) * (-0.01 * az + c * ay * az) - (-0.01) ^ 2) with
        ((-0.01 + c * ay) * (-0.01 + c * ay) * (ax * ax + ay * ay + az * az) - 2 * (-0.01 + c * ay) * c * ay + c * c - (-0.01) * (-0.01)) by ring.
      rewrite U. replace ((-0.01 + c * ay) * (-0.01 + c * ay) * 1 - 2 * (-0.01 + c * ay) * c * ay + c * c - (-0.01) * (-0.01)) with (c * (c * (1 - ay * ay))) by ring. rewrite Ec. nra.
    + apply Rabs_le. nra.
    + apply Rabs_le. rewrite Ec. lra.
    + right. rewrite Ec. split; [lra|]. nra.
Qed.
Lemma industrial_edge x0 : x0 = 0.99 \/ x0 = 0.71 -> edge (in_coll industrial_boxes None) (V3 x0 (-0.15) 0).
Proof.
  intros Hx x. cbn [vx vy vz]. intros X Y Z. apply Rabs_le_inv' in X, Y. apply industrial_fills. unfold between.
  destruct Z as [Z|Z].
  - right. right. left. cbn [fst snd vx vy vz]. lra.
  - destruct (Rle_lt_dec 1 (vx x)); [left; cbn [fst snd vx vy vz]; lra|]. destruct (Rle_lt_dec (vx x) 0.7).
    + right. right. right. right. right. left. cbn [fst snd vx vy vz]. lra.
    + right. right. right. right. left. cbn [fst snd vx vy vz]. lra.
Qed.

(** ** The obstacle on the seam *)
Lemma roll_range r : Rabs r <= 1.5707963267948966 -> -0.011 <= cos r.
Proof.
  intros H. assert (E : cos r = cos (Rabs r)) by (unfold Rabs; destruct (Rcase_abs r); [rewrite cos_neg|]; reflexivity). rewrite E. pose proof (Rabs_pos r). set (t := Rabs r) in *. clearbody t. clear E. pose proof PI_low.
  destruct (Rle_lt_dec t (PI / 2)) as [L|L]; [assert (0 <= cos t) by (apply cos_ge_0; lra); lra|].
  replace t with (PI / 2 + (t - PI / 2)) by ring.
  assert (C : cos (PI / 2 + (t - PI / 2)) = - sin (t - PI / 2)) by (rewrite cos_plus, cos_PI2, sin_PI2; ring). rewrite C. pose proof (sin_lt_x (t - PI / 2) ltac:(lra)). lra.
Qed.
Lemma pitch_range : 0.689 <= sin 2.356194490192345 <= 1 /\ cos 2.356194490192345 <= 0.
Proof.
  pose proof PI_low. pose proof PI_high. split; [split|].
  - rewrite <- sin_PI_x. apply Rle_trans with (sin 0.7638).
    + destruct (sin_range 0.7638 ltac:(lra)) as [A _]. lra.
    + apply sin_incr_1; lra.
  - apply SIN_bound.
  - apply cos_le_0; lra.
Qed.
Lemma obstacle_hits F y r c e : rigid F -> 0 <= e <= 0.001 -> tmul F tool_tip = M4 (rot_xyz r 2.356194490192345 c) (V3 0.82585786 y 0.12414214) v0 1 -> Rabs y <= 0.028 -> Rabs r <= 1.5707963267948966 ->
  exists x, in_coll (fst torch) (Some F) x /\ in_coll (obstacle_boxes e) None x.
Proof.
  intros HF He E Hy Hr. pose proof (nozzle F) as W. cbv zeta in W. specialize (fun w => W w HF). rewrite E in W. cbn [pos rot] in W. rewrite rot_xyz_col2 in W. clear E.
  pose proof (roll_range r Hr) as R0. destruct pitch_range as [S C]. apply Rabs_le_inv' in Hy.
  assert (Uc : sin 2.356194490192345 ^ 2 + cos 2.356194490192345 ^ 2 = 1) by (pose proof (sin2_cos2 2.356194490192345) as U; unfold Rsqr in U; lra).
  assert (Ur : sin r ^ 2 + cos r ^ 2 = 1) by (pose proof (sin2_cos2 r) as U; unfold Rsqr in U; lra).
  set (s := sin 2.356194490192345) in *. set (k := cos 2.356194490192345) in *. set (u := sin r) in *. set (v := cos r) in *. clearbody s k u v.
  assert (K2 : k ^ 2 <= 0.5254) by nra. assert (K1 : -0.725 <= k) by nra. assert (V1 : v <= 1) by nra.
  set (by' := u * k) in *. set (bz := - (v * k)) in *.
  assert (Ub : s * s + by' * by' + bz * bz = 1). { unfold by', bz. replace (s * s + u * k * (u * k) + - (v * k) * - (v * k)) with (s ^ 2 + k ^ 2 * (u ^ 2 + v ^ 2)) by ring. rewrite Ur. lra. }
  assert (B2 : by' * by' <= 0.5254) by nra. assert (Bz : -0.008 <= bz <= 0.725) by (unfold bz; nra). assert (B1 : -0.725 <= by' <= 0.725) by nra.
  replace (V3 s (- u * k) (v * k)) with (V3 s (- by') (- bz)) in W by (unfold by', bz; f_equal; ring). clearbody by' bz. clear Ur Uc V1 R0 K1 K2 C u v k Hr c r.
  assert (W' : forall x y' z, 0.01 <= - (x * s + y' * - by' + z * - bz) <= 0.11 -> x * x + y' * y' + z * z - (x * s + y' * - by' + z * - bz) ^ 2 <= 0.00015625 -> in_coll (fst torch) (Some F) (V3 (0.82585786 + x) (y + y') (0.12414214 + z))) by (intros x y' z; exact (W (V3 x y' z))).
  clear W. assert (M : forall x y' z, 0.01 <= - (x * s + y' * - by' + z * - bz) <= 0.11 -> x * x + y' * y' + z * z - (x * s + y' * - by' + z * - bz) ^ 2 <= 0.00015625 ->
    -0.075 <= x <= -0.02585786 -> -0.05 <= y + y' <= 0.05 -> -0.014 <= z <= 0.035 -> exists x, in_coll (fst torch) (Some F) x /\ in_coll (obstacle_boxes e) None x).
  { intros x y' z A1 A2 X Y Z. eexists. split; [apply (W' x y' z); auto|]. apply obstacle_fills. right. right. right. left. unfold between. cbn [fst snd vx vy vz]. lra. }
  clear W'. destruct (Rle_lt_dec (Rabs (y + 0.038 * by')) 0.05) as [Y|Y].
  - apply Rabs_le_inv' in Y. assert (E : -0.038 * s * s + 0.038 * by' * - by' + 0.038 * bz * - bz = -0.038) by lra.
    apply (M (-0.038 * s) (0.038 * by') (0.038 * bz)); rewrite ?E; [lra| |lra|lra|lra]. clear M. lra.
  - assert (SG : exists g, g * g = 1 /\ 0 <= g * by' /\ 0.05 < g * (y + 0.038 * by') /\ g * y <= 0.028).
    { unfold Rabs in Y. destruct (Rcase_abs (y + 0.038 * by')); [exists (-1)|exists 1]; lra. }
    destruct SG as (g & G2 & G0 & G1 & Gy). assert (Gb : 0.57 <= g * by') by lra. assert (Gq : (g * by') * (g * by') <= 0.5254) by (replace ((g * by') * (g * by')) with (g * g * (by' * by')) by ring; rewrite G2; lra). assert (Gc : g * by' <= 0.725) by nra.
    set (h := g * by') in *. assert (Eh : by' * by' = h * h) by (unfold h; replace (g * by' * (g * by')) with (g * g * (by' * by')) by ring; rewrite G2; ring). assert (Ey : by' = g * h) by (unfold h; rewrite <- Rmult_assoc, G2; ring). clearbody h. subst by'.
    assert (Bz2 : bz * bz <= 0.2004) by nra. assert (Bz1 : bz <= 0.45) by nra.
    assert (E : (-0.038 * s - 0.0125 * h * s) * s + (g * (0.038 * h - 0.0125 * (1 - h * h))) * - (g * h) + (0.038 * bz + 0.0125 * h * bz) * - bz = -0.038).
    { replace ((-0.038 * s - 0.0125 * h * s) * s + (g * (0.038 * h - 0.0125 * (1 - h * h))) * - (g * h) + (0.038 * bz + 0.0125 * h * bz) * - bz) with
        (-0.038 * (s * s) - 0.0125 * h * (s * s) - g * g * (0.038 * (h * h) - 0.0125 * h + 0.0125 * (h * h) * h) - 0.038 * (bz * bz) - 0.0125 * h * (bz * bz)) by ring.
      rewrite G2. rewrite Eh in Ub. replace (s * s) with (1 - h * h - bz * bz) by lra. lra. }
    apply (M (-0.038 * s - 0.0125 * h * s) (g * (0.038 * h - 0.0125 * (1 - h * h))) (0.038 * bz + 0.0125 * h * bz)); rewrite ?E; clear M E.
    + lra.
    + replace ((-0.038 * s - 0.0125 * h * s) * (-0.038 * s - 0.0125 * h * s)) with ((0.038 + 0.0125 * h) * (0.038 + 0.0125 * h) * (s * s)) by lra.
      replace (g * (0.038 * h - 0.0125 * (1 - h * h)) * (g * (0.038 * h - 0.0125 * (1 - h * h)))) with (g * g * ((0.038 * h - 0.0125 * (1 - h * h)) * (0.038 * h - 0.0125 * (1 - h * h)))) by ring. rewrite G2. rewrite Eh in Ub. replace (s * s) with (1 - h * h - bz * bz) by lra. nra.
    + nra.
    + assert (-0.05 <= g * (y + g * (0.038 * h - 0.0125 * (1 - h * h))) <= 0.05) as Q.
      { replace (g * (y + g * (0.038 * h - 0.0125 * (1 - h * h)))) with (g * y + g * g * (0.038 * h - 0.0125 * (1 - h * h))) by ring. rewrite G2. replace (y + 0.038 * (g * h)) with (y + g * (0.038 * h)) in G1 by ring. replace (g * (y + g * (0.038 * h))) with (g * y + g * g * (0.038 * h)) in G1 by ring. rewrite G2 in G1. nra. }
      assert (GG : g = 1 \/ g = -1) by (assert ((g - 1) * (g + 1) = 0) as Z by lra; apply Rmult_integral in Z; destruct Z; [left|right]; lra). destruct GG as [-> | ->]; lra.
    + nra.
Qed.

(** ** Robots that hold the torch *)
(** a robot and joint values with which is_in_collision can be called, the torch mounted *)
Definition armed (r : robot) (q : list R) : Prop := good r /\ joints_ok r /\ solid r /\ (1 <= ndof r <= length q)%nat /\ r_tool r = Some torch.
Lemma as_path_nth draws path k tp : nth_error (as_path draws path) k = Some tp -> exists pt, nth_error path k = Some pt /\ tp = as_pathpt (draws k) pt.
Proof.
  intros H. unfold as_path in H. rewrite nth_error_map in H. destruct (nth_error (combine _ _) k) as [[i pt]|] eqn:E; [|discriminate]. injection H as <-.
  assert (K : (k < length path)%nat) by (apply nth_error_Some in E as E' || idtac; assert (k < length (combine (seq 0 (length path)) path))%nat by (apply nth_error_Some; congruence); rewrite combine_length, seq_length in *; lia).
  assert (G : forall (l : list ppt) s k i pt, nth_error (combine (seq s (length l)) l) k = Some (i, pt) -> i = (s + k)%nat /\ nth_error l k = Some pt).
  { clear. induction l as [|x l IH]; intros s [|k] i pt H; cbn in H; try discriminate; [injection H as <- <-; split; [lia|reflexivity]|]. apply IH in H. destruct H as [-> H]. split; [lia|exact H]. }
  apply G in E. destruct E as [-> E]. exists pt. auto.
Qed.
Lemma euler_allowed p rpy rnd tp T x y z a b c : euler_at p rpy tp -> p = [x; y; z] -> rpy = [a; b; c] -> allowed (as_pathpt rnd tp) T -> exists r s t, within a r /\ within b s /\ within c t /\ T = frame6 x y z r s t.
Proof.
  intros (e & -> & E) -> -> A. cbn [as_pathpt allowed] in A. destruct A as (_ & x' & y' & z' & r & s & t & F & ->). cbn [map] in E.
  pose proof (euler_fields _ _ _ _ _ _ _ _ _ E) as (F1 & F2 & _). rewrite F1, F2 in F. cbn [firstn app] in F.
  inversion F as [|? ? ? ? A1 F']; subst. inversion F' as [|? ? ? ? A2 F'']; subst. inversion F'' as [|? ? ? ? A3 F3]; subst. inversion F3 as [|? ? ? ? A4 F4]; subst. inversion F4 as [|? ? ? ? A5 F5]; subst. inversion F5 as [|? ? ? ? A6 _]; subst.
  cbn [within] in A1, A2, A3. subst. exists r, s, t. auto.
Qed.
Lemma industrial_blocked prim r q p1 p2 p3 draws tp T : exact_prim prim -> armed r q -> import_paths task_industrial = Ok [p1; p2; p3] ->
  nth_error (as_path draws p1) 9 = Some tp \/ nth_error (as_path draws p2) 0 = Some tp \/ nth_error (as_path draws p3) 0 = Some tp -> allowed tp T -> snd (fk r q) = Ok T ->
  snd (robot_collision prim r q industrial_boxes) = Ok true.
Proof.
  intros X (G & J & SO & L & Et) E I A Ef. destruct paths_industrial as (p1' & p2' & p3' & E' & [_ H1] & [_ H2] & [_ H3]). rewrite E in E'. injection E' as <- <- <-.
  assert (P : exists x0, (x0 = 0.99 \/ x0 = 0.71) /\ pos T = V3 x0 (-0.15) 0).
  { destruct I as [I|[I|I]]; apply as_path_nth in I; destruct I as (pt & I & ->); [apply H1 in I|apply H2 in I|apply H3 in I];
      destruct (euler_allowed _ _ _ _ _ _ _ _ _ _ _ I eq_refl eq_refl A) as (u & v & w & _ & _ & _ & ->); cbn [frame6 pos vx vy vz]; [exists 0.99|exists 0.99|exists 0.71]; (split; [auto|]); replace (INR 9) with 9 by (cbn; lra); try replace (INR 0) with 0 by reflexivity; apply vec3_eq; cbn [vx vy vz]; lra. }
  destruct P as (x0 & X0 & P). apply (torch_hits prim r q industrial_boxes T); auto; [apply boxes_rigid|]. intros F HF EF. apply edge_hits; auto. rewrite EF, P. apply industrial_edge. exact X0.
Qed.
Lemma obstacle_blocked prim r q p draws k tp T : exact_prim prim -> armed r q -> import_paths task_torch_obstacle = Ok [p] -> k = 4%nat \/ k = 5%nat ->
  nth_error (as_path draws p) k = Some tp -> allowed tp T -> snd (fk r q) = Ok T -> snd (robot_collision prim r q (obstacle_boxes ulp)) = Ok true.
Proof.
  intros X (G & J & SO & L & Et) E K I A Ef. destruct paths_obstacle as (p' & E' & [_ H]). rewrite E in E'. injection E' as <-.
  apply as_path_nth in I. destruct I as (pt & I & ->). apply H in I. destruct (euler_allowed _ _ _ _ _ _ _ _ _ _ _ I eq_refl eq_refl A) as (u & v & w & Hu & Hv & _ & ->). cbn [within around t_lower t_upper] in Hu, Hv. subst v.
  apply (torch_hits prim r q (obstacle_boxes ulp) _ X G J SO L Et (boxes_rigid _) Ef). intros F HF EF. unfold frame6 in EF. cbn [vx vy vz] in EF.
  replace (0.82585786 + INR k / INR 9 * (0.82585786 - 0.82585786)) with 0.82585786 in EF by (unfold Rminus; rewrite Rplus_opp_r; ring). replace (0.12414214 + INR k / INR 9 * (0.12414214 - 0.12414214)) with 0.12414214 in EF by (unfold Rminus; rewrite Rplus_opp_r; ring).
  eapply obstacle_hits; [exact HF|unfold ulp; lra|exact EF| |apply Rabs_le; lra]. replace (INR 9) with 9 by (cbn; lra). apply Rabs_le. destruct K as [-> | ->]; [replace (INR 4) with 4 by (cbn; lra)|replace (INR 5) with 5 by (cbn; lra)]; lra.
Qed.

(** ** The robot of the first task: a Kuka that stands on the floor of the box *)
Lemma pose_first q1 : tapply (dhm 0.18 (PI / 2) 0 q1) (V3 (-0.18) 0.005 0.05) = V3 (0.05 * sin q1) (- (0.05 * cos q1)) 0.005.
Proof. rewrite dhm_apply. unfold mapply, vadd, rot_x, rot_z. cbn [vx vy vz m00 m01 m02 m10 m11 m12 m20 m21 m22]. rewrite cos_PI2, sin_PI2. apply vec3_eq; cbn [vx vy vz]; lra. Qed.
Lemma kuka_in_floor r q scene : same_links r (KukaG 0.18 0.6 0.62 0.115) -> r_tfb r = eye4 -> (1 <= length q)%nat ->
  (forall x, -0.05 <= vx x <= 0.05 -> -0.05 <= vy x <= 0.05 -> vz x = 0.005 -> in_coll scene None x) -> exists x, in_robot r q x /\ in_coll scene None x.
Proof.
  intros H B L HS. get_link H 0%nat l E Edh Ej Eg. destruct (nth_error_some q 0 ltac:(lia)) as [t Et]. exists (V3 (0.05 * sin t) (- (0.05 * cos t)) 0.005). split.
  - right. left. exists 0%nat, l. split; auto. pose proof (frame_step r q 0 l t E Et) as FS. cbn [before] in FS. rewrite B in FS. unfold lspec in FS. rewrite Ej, Edh in FS. cbn [da dalpha dd] in FS. rewrite tmul_1_l in FS. rewrite FS, Eg.
    rewrite <- pose_first. apply in_coll_local; [apply dhm_rigid|repeat constructor; apply pose_x_rigid|]. exists (V3 (-0.18) 0.005 0.05). split; auto.
    pose proof kuka_extents as K. inversion K as [|? ? ? ? K1 _]; subst. apply K1. left. unfold between. cbn [fst snd vx vy vz]. lra.
  - pose proof (SIN_bound t). pose proof (COS_bound t). apply HS; cbn [vx vy vz]; lra.
Qed.
Lemma kuka_in_box prim r q : exact_prim prim -> good r -> solid r -> same_links r (KukaG 0.18 0.6 0.62 0.115) -> r_tfb r = eye4 -> (6 <= length q)%nat -> snd (robot_collision prim r q box_boxes) = Ok true.
Proof.
  intros X G SO SL B L. assert (N : ndof r = 6%nat) by (rewrite (same_links_ndof _ _ SL); reflexivity). destruct (kuka_rigid 0.18 0.6 0.62 0.115) as [_ KJ]. pose proof (same_links_joints _ _ SL KJ) as J.
  destruct (collision_correct prim r q box_boxes G J ltac:(lia) ltac:(lia)) as (b & Eb & _). rewrite Eb. f_equal. destruct b; auto. exfalso.
  assert (H : hit prim r box_boxes q = false) by (unfold hit; rewrite Eb; reflexivity). apply free_iff_clear in H; auto; [|lia|apply boxes_rigid]. destruct H as [H _].
  destruct (kuka_in_floor r q box_boxes SL B ltac:(lia)) as (x & X1 & X2); [|apply (H x); auto]. intros x Hx Hy Hz. apply box_fills. left. unfold between. cbn [fst snd vx vy vz]. lra.
Qed.

(** ** The editor of path_in_box.py *)
Lemma last_file_default d vs : (forall n, ~ In (SubmitFileName n) vs) -> last_file d vs = d.
Proof. induction vs as [|v vs IH]; intros H; auto. destruct v as [n|n| | |draws|]; cbn [last_file]; try (apply IH; intros m I; apply (H m); right; exact I). exfalso. apply (H n). left. reflexivity. Qed.
Section Editor.
Context (prim : shape -> mat3 -> vec3 -> shape -> mat3 -> vec3 -> bool) (to32 : R -> R) (X : exact_prim prim).
Context (k0 : kuka) (K0 : kuka_ok 0.18 0.6 0.62 0.115 k0) (S0 : solid (k_rob k0)) (SL : same_links (k_rob k0) (KukaG 0.18 0.6 0.62 0.115)) (B0 : r_tfb (k_rob k0) = eye4).
Context {K : CostStruct} (sq_acc : K -> R -> R -> R -> K) (pq : pqueue K R) (ypr : quat -> vec3) (fuel : nat).
Context (scene_at : string -> res coll) (paths_at : string -> res (list (list ppt))).
Local Notation run_ := (kuka_run prim to32 sq_acc pq ypr fuel scene_at paths_at).
Lemma box_no_candidate samples tp q : ~ candidate prim k0 box_boxes samples tp q.
Proof.
  intros (Ts & T & _ & _ & I). pose proof (kuka_free_length prim 0.18 0.6 0.62 0.115 ltac:(lra) k0 K0 box_boxes [T]) as L. rewrite Forall_forall in L. specialize (L q). cbn [flat_map] in L. rewrite app_nil_r in L. specialize (L I).
  unfold kuka_free in I. destruct (snd (kuka_ik k0 T)) as [[|s]| |]; try destruct I. apply filter_In in I. destruct I as [_ I]. unfold hit in I. rewrite kuka_in_box in I; auto; [discriminate|apply (ko_rob _ _ _ _ _ K0)|lia].
Qed.
Lemma box_no_plan samples path ow rows c : snd (kuka_plan prim to32 sq_acc pq samples box_boxes path "dijkstra" ow k0) <> Ok (GspOk rows c).
Proof.
  intros G. rewrite (kuka_plan_eq prim to32 0.18 0.6 0.62 0.115 ltac:(lra) k0 K0) in G. destruct path as [|tp path].
  - cbn [mapM bind map] in G. destruct ow; discriminate G.
  - destruct (mapM samples (tp :: path)) as [D| |] eqn:ED; try discriminate. cbn [bind] in G. apply (plan_rows sq_acc pq to32 (flat_map (kuka_free prim k0 box_boxes)) _ _ _ _ _ _ _ ED) in G.
    inversion G as [|? ? ? ? (Ts & q & A & B & _) _]; subst. apply in_flat_map in B. destruct B as (T & B1 & B2). apply (box_no_candidate samples tp q). exists Ts, T. auto.
Qed.
Lemma box_editor wdir vs : scene_at (wdir ++ "/scenes/path_in_box.urdf")%string = Ok box_boxes -> (forall n, ~ In (SubmitFileName n) vs) -> e_solution (run_ (new_editor k0 wdir) vs) = None.
Proof.
  intros ES NS. destruct (e_solution (run_ (new_editor k0 wdir) vs)) as [rows|] eqn:E; auto. exfalso.
  destruct (solution_origin _ _ _ _ _ _ _ _ _ _ _ _ (new_editor k0 wdir) vs rows eq_refl E) as (before & draws & after & Ev & P & C & _).
  pose proof (krun_inv prim to32 0.18 0.6 0.62 0.115 ltac:(lra) k0 sq_acc pq ypr fuel scene_at paths_at before (new_editor k0 wdir) (conj K0 eq_refl)) as I. destruct (kcomputed prim to32 0.18 0.6 0.62 0.115 ltac:(lra) k0 K0 sq_acc pq ypr fuel _ _ _ I C) as (sc & c & Es & G).
  assert (Sc : sc = box_boxes); [|subst sc; exact (box_no_plan _ _ _ _ _ G)].
  apply (scene_read k_rob kuka_put kuka_call (fun k _ _ => (k, Raise TypeError)) prim to32 K sq_acc pq ypr fuel scene_at paths_at) in Es. destruct Es as (b1 & a1 & Eb & Es & _).
  rewrite last_file_default in Es by (intros n I1; apply (NS n); subst vs before; rewrite !in_app_iff; auto). change ("/" ++ "scenes/path_in_box.urdf")%string with "/scenes/path_in_box.urdf"%string in Es. congruence.
Qed.
End Editor.

(** ** The small passage *)
Lemma passage_up F x0 : rigid F -> pos (tmul F tool_tip) = V3 x0 0 0 -> vz (col2 (rot (tmul F tool_tip))) < 0.745 -> exists x, in_coll (fst torch) (Some F) x /\ in_coll (passage_boxes x0) None x.
Proof.
  intros HF EP Hz. pose proof (nozzle F) as W. pose proof (axis_unit F HF) as U. cbv zeta in W. specialize (fun w => W w HF). rewrite EP in W. destruct (col2 (rot (tmul F tool_tip))) as [ax ay az]. cbn [vz] in Hz.
  assert (W' : forall x y z, 0.01 <= - (x * ax + y * ay + z * az) <= 0.11 -> x * x + y * y + z * z - (x * ax + y * ay + z * az) ^ 2 <= 0.00015625 -> in_coll (fst torch) (Some F) (V3 (x0 + x) (0 + y) (0 + z))) by (intros x y z; exact (W (V3 x y z))).
  unfold norm2, vdot in U. cbn [vx vy vz] in U. clear W.
  assert (M : forall x y z, 0.01 <= - (x * ax + y * ay + z * az) <= 0.11 -> x * x + y * y + z * z - (x * ax + y * ay + z * az) ^ 2 <= 0.00015625 ->
    -0.0175 <= x <= 0.0175 -> -0.015 <= y <= 0.015 -> 0 <= z <= 0.1 -> exists x, in_coll (fst torch) (Some F) x /\ in_coll (passage_boxes x0) None x).
  { intros x y z A1 A2 X Y Z. eexists. split; [apply (W' x y z); auto|]. apply passage_fills. right. right. left. unfold between. cbn [fst snd vx vy vz]. lra. }
  clear W' EP HF. assert (Bd : forall t, t * t <= 1 -> -1 <= t <= 1) by (clear; intros t Ht; split; nra).
  assert (Bx : -1 <= ax <= 1) by (apply Bd; nra). assert (By : -1 <= ay <= 1) by (apply Bd; nra). assert (Bz : -1 <= az <= 1) by (apply Bd; nra). clear Bd.
  destruct (Rle_lt_dec az 0) as [Z|Z].
  - assert (E : -0.01 * ax * ax + -0.01 * ay * ay + -0.01 * az * az = -0.01) by lra. apply (M (-0.01 * ax) (-0.01 * ay) (-0.01 * az)); rewrite ?E; [lra| |lra|lra|lra]. lra.
  - assert (Z2 : az * az <= 0.555025) by nra. set (m := 0.01 / (1 - az * az)). assert (Em : m * (1 - az * az) = 0.01) by (unfold m; field; lra). clearbody m.
    assert (M0 : 0 < m) by nra. assert (M1 : m <= 0.022474) by nra. assert (E : - m * ax * ax + - m * ay * ay + 0 * az = -0.01) by nra.
    assert (Q : m * m * (ax * ax + ay * ay) = 0.01 * m) by (replace (ax * ax + ay * ay) with (1 - az * az) by lra; rewrite Rmult_assoc, Em; ring).
    assert (Y2 : (m * ay) * (m * ay) <= 0.000224741) by nra. assert (X2 : (m * ax) * (m * ax) <= 0.000224741) by nra.
    apply (M (- m * ax) (- m * ay) 0); rewrite ?E; [lra|lra|nra|nra|lra].
Qed.
(** pointing up along the passage there is room *)
Lemma passage_free prim F x0 y : exact_prim prim -> rigid F -> pos (tmul F tool_tip) = V3 x0 y 0 -> col2 (rot (tmul F tool_tip)) = V3 0 0 1 ->
  Rabs (m00 (rot (tmul F tool_tip))) + Rabs (m01 (rot (tmul F tool_tip))) < 1.4 -> forall x, ~ (in_coll (fst torch) (Some F) x /\ in_coll (passage_boxes x0) None x).
Proof.
  intros X HF EP Ez Hs x (Hx & Hb). apply torch_local in Hx; auto. destruct Hx as (p & -> & Hp). apply torch_behind in Hp. destruct Hp as (w & -> & Hw).
  pose proof wire_rigid. pose proof tip_local_rigid. rewrite (tip_coords w) in Hb. rewrite <- (tapply_tmul wire), <- tip_form, <- tapply_tmul in Hb by (auto; apply torch_rigid).
  assert (RT : rotation (rot (tmul F tool_tip))) by (apply rigid_rot, rigid_tmul; auto; apply torch_rigid). apply rotation_tr in RT. apply col2_norm in RT.
  destruct (tmul F tool_tip) as [A P b c]. cbn [rot pos] in *. subst P. destruct A as [a00 a01 a02 a10 a11 a12 a20 a21 a22]. unfold col2, mtr in Ez, RT. cbn [m00 m01 m02 m10 m11 m12 m20 m21 m22 vx vy vz] in *. injection Ez as -> -> ->.
  assert (a20 = 0) by nra. assert (a21 = 0) by nra. subst a20 a21. clear RT.
  apply passage_fills in Hb. unfold tapply, mapply, vadd in Hb. cbn [rot pos vx vy vz m00 m01 m02 m10 m11 m12 m20 m21 m22] in Hb.
  destruct w as [wx wy wz]. unfold local_in, wire_shape in Hw. cbn [vx vy vz dx dy dz] in Hw, Hb.
  destruct Hw as [(W1 & W2 & W3)|W].
  - assert (D : Rabs (a00 * - wz + a01 * wy) < 0.0175).
    { apply Rle_lt_trans with (Rabs (a00 * - wz) + Rabs (a01 * wy)); [apply Rabs_triang|]. rewrite !Rabs_mult, Rabs_Ropp. pose proof (Rabs_pos a00). pose proof (Rabs_pos a01).
      assert (Rabs a00 * Rabs wz <= Rabs a00 * 0.0125) by (apply Rmult_le_compat_l; lra). assert (Rabs a01 * Rabs wy <= Rabs a01 * 0.0125) by (apply Rmult_le_compat_l; lra). lra. }
    apply Rabs_def2 in D. apply Rabs_le_inv' in W1. unfold between in Hb. rewrite !Exists_cons, Exists_nil in Hb. cbn [fst snd vx vy vz] in Hb. lra.
  - unfold between in Hb. rewrite !Exists_cons, Exists_nil in Hb. cbn [fst snd vx vy vz] in Hb. lra.
Qed.

(** *** The planner of small_passage.py *)
(** the points of small_passage.py: the positions of the file, any samples of unit length *)
Definition passage_pts (file : json) (pts : list passpt) : Prop := exists path, parse_path file = Ok path /\ Forall2 (fun tp pp => tp = Io.PFree [vx (pp_p pp); vy (pp_p pp); vz (pp_p pp)] /\ unit_samples pp) path pts.
Lemma passage_pts_nth pts k pp : passage_pts small_passage pts -> nth_error pts k = Some pp -> pp_p pp = V3 0 (-0.1 + INR k / 14 * 0.2) 0 /\ unit_samples pp.
Proof.
  intros (path & E & F) I. destruct path_passage as (path' & E' & [_ H]). rewrite E in E'. injection E' as <-. destruct (Forall2_nth_r _ _ _ _ _ F I) as (tp & It & Et & U). split; auto.
  apply H in It. rewrite Et in It. unfold on_line in It. cbn [vx vy vz] in It. destruct (pp_p pp) as [x y z]. cbn [vx vy vz] in It. injection It as -> -> ->. replace (INR 14) with 14 by (cbn; lra). apply vec3_eq; cbn [vx vy vz]; lra.
Qed.
Lemma passage_pts_length pts : passage_pts small_passage pts -> length pts = 15%nat /\ Forall unit_samples pts.
Proof.
  intros (path & E & F). destruct path_passage as (path' & E' & [L _]). rewrite E in E'. injection E' as <-. split; [rewrite <- (Forall2_length F); exact L|]. clear - F. induction F as [|? ? ? ? [_ H]]; constructor; auto.
Qed.
Lemma tool_tip_pose q p : qnorm2 q = 1 -> rigid (tool_frame (snd torch) q p) /\ tmul (tool_frame (snd torch) q p) tool_tip = tip_frame q p.
Proof. intros U. split; [apply (tool_rigid torch (proj2 torch_rigid)); auto|apply (tip_tool torch (proj2 torch_rigid))]. Qed.
Lemma tip_pos q p : pos (tip_frame q p) = p.
Proof. unfold tip_frame, qtransform. cbn [pos]. destruct p as [x y z]. unfold v0, vadd. apply vec3_eq; cbn [vx vy vz]; ring. Qed.
Lemma passage_plan_up prim pts scene r : exact_prim prim -> passage_pts small_passage pts -> parse_obstacles small_passage = Ok scene -> pass_plan prim torch scene pts = Ok r ->
  exists q, nth_error (dp_path _ r) 7 = Some q /\ 0.745 <= vz (col2 (qrot q)).
Proof.
  intros X P S E. rewrite (proj1 obstacles_passage) in S. injection S as <-. destruct (passage_pts_length pts P) as [L U]. destruct torch_rigid as [T1 T2].
  destruct (pass_sound prim torch (passage_boxes 0) X T1 T2 (boxes_rigid _) pts r U E) as (F & _ & _).
  destruct (nth_error_some pts 7 ltac:(lia)) as [pp Ip]. destruct (PlanningIter.Forall2_nth_l _ _ _ F _ _ Ip) as (q & Iq & In1 & Cl). exists q. split; auto.
  destruct (passage_pts_nth pts 7 pp P Ip) as [Ep Up]. unfold unit_samples in Up. rewrite Forall_forall in Up. destruct (tool_tip_pose q (pp_p pp) (Up q In1)) as [R1 R2].
  destruct (Rle_lt_dec 0.745 (vz (col2 (qrot q)))) as [Q|Q]; auto. exfalso. destruct (passage_up (tool_frame (snd torch) q (pp_p pp)) 0 R1) as (x & X1 & X2); [| |apply (Cl x); auto].
  - rewrite R2, tip_pos, Ep. replace (INR 7) with 7 by (cbn; lra). apply vec3_eq; cbn [vx vy vz]; lra.
  - rewrite R2. exact Q.
Qed.
(** pointing up, turned so that the nozzle fits between the walls *)
Definition upright_fit (q : quat) : Prop := col2 (qrot q) = V3 0 0 1 /\ Rabs (m00 (qrot q)) + Rabs (m01 (qrot q)) < 1.4.
Lemma passage_plan_still prim pts scene q : exact_prim prim -> passage_pts small_passage pts -> parse_obstacles small_passage = Ok scene -> upright_fit q -> Forall (fun pp => In q (pp_s pp)) pts ->
  exists r, pass_plan prim torch scene pts = Ok r /\ dp_success _ r = true /\ turns (dp_path _ r) = 0 /\ length (dp_path _ r) = 15%nat /\ exists A, Forall (fun q => qrot q = A) (dp_path _ r).
Proof.
  intros X P S [Q1 Q2] I. rewrite (proj1 obstacles_passage) in S. injection S as <-. destruct (passage_pts_length pts P) as [L U]. destruct torch_rigid as [T1 T2].
  assert (C : Forall (fun pp => clear_sample torch (passage_boxes 0) pp q) pts).
  { rewrite Forall_forall in *. intros pp Ip. split; [apply I; auto|]. destruct (In_nth_error _ _ Ip) as [k Ik]. destruct (passage_pts_nth pts k pp P Ik) as [Ep Up]. unfold unit_samples in Up. rewrite Forall_forall in Up.
    destruct (tool_tip_pose q (pp_p pp) (Up q (I pp Ip))) as [R1 R2]. intros x. apply (passage_free prim (tool_frame (snd torch) q (pp_p pp)) 0 (-0.1 + INR k / 14 * 0.2) X R1); rewrite R2; auto. rewrite tip_pos. exact Ep. }
  destruct (pass_complete prim torch (passage_boxes 0) X T1 T2 (boxes_rigid _) pts U ltac:(lia) (Forall_impl _ (fun pp H => ex_intro _ q H) C)) as (r & E & Su).
  exists r. split; auto. split; auto. destruct (pass_still prim torch (passage_boxes 0) X T1 T2 (boxes_rigid _) pts r q U E C) as [A B]. split; auto. split; auto.
  destruct (pass_sound prim torch (passage_boxes 0) X T1 T2 (boxes_rigid _) pts r U E) as (F & _ & _). rewrite <- (Forall2_length F). exact L.
Qed.
Lemma passage_plan_none prim pts scene pp : exact_prim prim -> passage_pts small_passage pts -> parse_obstacles small_passage = Ok scene -> nth_error pts 7 = Some pp ->
  (forall q, In q (pp_s pp) -> vz (col2 (qrot q)) < 0.745) -> exists e, pass_plan prim torch scene pts = Raise e.
Proof.
  intros X P S Ip H. rewrite (proj1 obstacles_passage) in S. injection S as <-. destruct (passage_pts_nth pts 7 pp P Ip) as [Ep Up]. unfold unit_samples in Up. rewrite Forall_forall in Up. destruct torch_rigid as [T1 T2].
  apply (pass_none prim torch (passage_boxes 0) pts pp); [eapply nth_error_In; eauto|]. intros q Iq. destruct (tool_tip_pose q (pp_p pp) (Up q Iq)) as [R1 R2].
  apply collision_points; auto; [apply boxes_rigid|cbn; auto|]. destruct (passage_up (tool_frame (snd torch) q (pp_p pp)) 0 R1) as (x & X1 & X2); [| |exists x; auto].
  - rewrite R2, tip_pos, Ep. replace (INR 7) with 7 by (cbn; lra). apply vec3_eq; cbn [vx vy vz]; lra.
  - rewrite R2. apply H. exact Iq.
Qed.
(** the robot at the middle of the passage of the editor's task *)
Lemma passage_robot prim r q path draws tp T : exact_prim prim -> armed r q -> import_paths task_small_passage = Ok [path] -> nth_error (as_path draws path) 7 = Some tp -> allowed tp T -> snd (fk r q) = Ok T ->
  snd (robot_collision prim r q (passage_boxes 0.8)) = Ok false -> 0.745 <= vz (col2 (rot T)).
Proof.
  intros X (G & J & SO & L & Et) E I A Ef C. destruct path_passage_2 as (p' & E' & [_ H]). rewrite same_passage, E' in E. cbn [bind] in E. injection E as <-.
  apply as_path_nth in I. destruct I as (pt & I & ->). apply H in I. subst pt. cbn [as_pathpt allowed] in A. destruct A as [_ A].
  destruct (Rle_lt_dec 0.745 (vz (col2 (rot T)))) as [Q|Q]; auto. exfalso. rewrite (torch_hits prim r q (passage_boxes 0.8) T) in C; auto; [discriminate|apply boxes_rigid|].
  intros F HF EF. apply passage_up; auto; rewrite EF; auto. unfold on_line in A. cbn [vx vy vz] in A. destruct (pos T) as [x y z]. cbn [vx vy vz] in A. injection A as <- <- <-. replace (INR 7) with 7 by (cbn; lra). replace (INR 14) with 14 by (cbn; lra). apply vec3_eq; cbn [vx vy vz]; lra.
Qed.

(** ** What the files say *)
Lemma scenes_fill N : decimal_reader N ->
  (exists c, import_doc N scene_circle = Ok c /\ fills c [(V3 0.55 (-0.25) (-0.03), V3 1.05 0.25 0.07)]) /\
  (exists c, import_doc N scene_industrial = Ok c /\ fills c
    [(V3 1 (-0.25) 0, V3 1.2 0.25 0.1); (V3 0.75 (-0.04166666666665) 0, V3 0.95 0.04166666666665 0.01); (V3 0.5 (-0.35) (-0.01), V3 1.2 0.35 0);
     (V3 0.7 0.15 0, V3 1 0.25 0.055); (V3 0.7 (-0.25) 0, V3 1 (-0.15) 0.055); (V3 0.5 (-0.25) 0, V3 0.7 0.25 0.1)]) /\
  (exists c, import_doc N scene_path_in_box = Ok c /\ forall x, in_coll c None x <-> in_coll workpiece None x) /\
  (exists c, import_doc N scene_small_passage = Ok c /\ fills c
    [(V3 0.6825 (-0.015) (-0.1), V3 0.7825 0.015 0.1); (V3 0.8175 (-0.015) (-0.1), V3 0.9175 0.015 0.1); (V3 0.7825 (-0.015) 0, V3 0.8175 0.015 0.1)]) /\
  (exists c, import_doc N scene_torch_obstacle = Ok c /\ fills c
    [(V3 (0.35 + ulp) (-0.25) 0, V3 (0.85 + ulp) 0.25 0.1); (V3 0.75 (-0.25) (0.1 + 0.1 * ulp), V3 0.85 0.25 (0.11 + 0.1 * ulp));
     (V3 (0.84 + ulp) (-0.25) (0.11 + 0.3 * ulp), V3 (0.85 + ulp) 0.25 (0.21 + 0.3 * ulp)); (V3 0.75 (-0.05) 0.11, V3 0.8 0.05 0.16)]).
Proof.
  intros D. split; [exists circle_boxes; split; [apply import_circle; auto|exact circle_fills]|]. split; [exists industrial_boxes; split; [apply import_industrial; auto|exact industrial_fills]|].
  split; [exists box_boxes; split; [apply import_box; auto|intros x; rewrite (box_fills x), (workpiece_extent x); reflexivity]|].
  split; [exists (passage_boxes 0.8); split; [apply import_passage; auto|eapply fills_conv; [apply passage_fills|repeat (f_equal; try lra)]]|].
  exists (obstacle_boxes ulp). split; [apply import_obstacle; auto|apply obstacle_fills].
Qed.
Lemma kp_fills : fills kp_scene [(V3 (0.35 + 0) (-0.25) 0, V3 (0.85 + 0) 0.25 0.1); (V3 0.75 (-0.25) (0.1 + 0.1 * 0), V3 0.85 0.25 (0.11 + 0.1 * 0));
     (V3 (0.84 + 0) (-0.25) (0.11 + 0.3 * 0), V3 (0.85 + 0) 0.25 (0.21 + 0.3 * 0)); (V3 0.75 (-0.05) 0.11, V3 0.8 0.05 0.16)].
Proof. intros x. rewrite in_kp_scene, !Exists_cons, Exists_nil. unfold between. cbn [fst snd vx vy vz]. split; intros H; repeat destruct H as [H|H]; lra. Qed.
(** each face of the boxes in torch_obstacle.urdf is at most ulp from that in kingpin.py *)
Definition shifted (e : R) (l : list (vec3 * vec3)) (l' : list (vec3 * vec3)) : Prop :=
  Forall2 (fun b b' => let d u v := 0 <= vx v - vx u <= e /\ 0 <= vy v - vy u <= e /\ 0 <= vz v - vz u <= e in d (fst b) (fst b') /\ d (snd b) (snd b')) l l'.
Lemma obstacle_kingpin N : decimal_reader N -> exists c l l', import_doc N scene_torch_obstacle = Ok c /\ fills kp_scene l /\ fills c l' /\ shifted ulp l l'.
Proof.
  intros D. destruct (scenes_fill N D) as (_ & _ & _ & _ & c & E & F). exists c. do 2 eexists. split; [exact E|]. split; [exact kp_fills|]. split; [exact F|].
  assert (0 <= ulp) by (unfold ulp; lra). unfold shifted. repeat (apply Forall2_cons; [cbn [fst snd vx vy vz]; lra|]). apply Forall2_nil.
Qed.
Lemma sum_passage N : decimal_reader N -> import_doc N scene_small_passage = parse_obstacles small_passage_2 /\ import_doc N scene_circle = parse_obstacles weld_circle /\
  import_paths task_small_passage = (p <- parse_path small_passage_2 ;; Ok [p]) /\ import_paths task_circle = (p <- parse_path weld_circle ;; Ok [p]).
Proof. intros D. rewrite (import_passage N D), (import_circle N D), (proj2 obstacles_passage), obstacles_circle. split; [auto|]. split; [auto|]. split; [exact same_passage|exact same_circle]. Qed.
Lemma moved_passage : exists path path2, parse_path small_passage = Ok path /\ parse_path small_passage_2 = Ok path2 /\
  Forall2 (fun tp tp2 => exists x y z, tp = Io.PFree [x; y; z] /\ tp2 = Io.PFree [0.8 + x; y; z]) path path2.
Proof.
  destruct path_passage as (p & E & [L H]). destruct path_passage_2 as (p2 & E2 & [L2 H2]). exists p, p2. split; auto. split; auto. apply Forall2_nth_error_intro; [lia|].
  intros k tp tp2 I1 I2. apply H in I1. apply H2 in I2. subst. unfold on_line. cbn [vx vy vz]. do 3 eexists. split; [reflexivity|]. f_equal. f_equal. ring.
Qed.
Lemma euler_frames path n f rpy draws k tp T a b c : points path n (fun k tp => euler_at (f k) rpy tp) -> nth_error (as_path draws path) k = Some tp -> rpy = [a; b; c] -> (forall k, exists x y z, f k = [x; y; z]) -> allowed tp T ->
  f k = [vx (pos T); vy (pos T); vz (pos T)] /\ exists r s t, within a r /\ within b s /\ within c t /\ rot T = rot_xyz r s t.
Proof.
  intros [_ H] I Er Ef A. apply as_path_nth in I. destruct I as (pt & I & ->). apply H in I. destruct (Ef k) as (x & y & z & Ek). destruct (euler_allowed _ _ _ _ _ _ _ _ _ _ _ I Ek Er A) as (r & s & t & W1 & W2 & W3 & ->).
  rewrite Ek. split; [reflexivity|]. exists r, s, t. auto.
Qed.
Ltac list3 H := let a := fresh in let b := fresh in let c := fresh in injection H as a b c.
Lemma weld_joints p1 p2 p3 d1 d2 d3 a9 w0 w9 r0 r9 A W0 W9 R0 R9 : import_paths task_industrial = Ok [p1; p2; p3] ->
  nth_error (as_path d1 p1) 9 = Some a9 -> nth_error (as_path d2 p2) 0 = Some w0 -> nth_error (as_path d2 p2) 9 = Some w9 -> nth_error (as_path d3 p3) 0 = Some r0 -> nth_error (as_path d3 p3) 9 = Some r9 ->
  allowed a9 A -> allowed w0 W0 -> allowed w9 W9 -> allowed r0 R0 -> allowed r9 R9 ->
  pos A = pos W0 /\ pos W9 = pos R9 /\ pos W9 <> pos R0.
Proof.
  intros E I1 I2 I3 I4 I5 A1 A2 A3 A4 A5. destruct paths_industrial as (p1' & p2' & p3' & E' & H1 & H2 & H3). rewrite E in E'. injection E' as <- <- <-.
  assert (OL : forall a b k, exists x y z, on_line a b 9 k = [x; y; z]) by (intros; unfold on_line; eauto).
  destruct (euler_frames _ _ _ _ _ _ _ _ _ _ _ H1 I1 eq_refl (OL _ _) A1) as [P1 _]. destruct (euler_frames _ _ _ _ _ _ _ _ _ _ _ H2 I2 eq_refl (OL _ _) A2) as [P2 _]. destruct (euler_frames _ _ _ _ _ _ _ _ _ _ _ H2 I3 eq_refl (OL _ _) A3) as [P3 _].
  destruct (euler_frames _ _ _ _ _ _ _ _ _ _ _ H3 I4 eq_refl (OL _ _) A4) as [P4 _]. destruct (euler_frames _ _ _ _ _ _ _ _ _ _ _ H3 I5 eq_refl (OL _ _) A5) as [P5 _].
  unfold on_line in *. cbn [vx vy vz] in *. replace (INR 9) with 9 in * by (cbn; lra). replace (INR 0) with 0 in * by reflexivity.
  destruct (pos A) as [x1 y1 z1], (pos W0) as [x2 y2 z2], (pos W9) as [x3 y3 z3], (pos R0) as [x4 y4 z4], (pos R9) as [x5 y5 z5]. cbn [vx vy vz] in *. injection P1 as <- <- <-. injection P2 as <- <- <-. injection P3 as <- <- <-. injection P4 as <- <- <-. injection P5 as <- <- <-.
  split; [f_equal; lra|]. split; [f_equal; lra|]. intros Q. injection Q as Q _ _. lra.
Qed.
Lemma sin_20 : 0.83 <= sin 20 /\ sin (PI / 9) <= 0.352.
Proof.
  pose proof PI_low. pose proof PI_high. split.
  - replace 20 with (20 - 6 * PI + 2 * INR 3 * PI) by (cbn; lra). rewrite sin_period. apply Rle_trans with (sin 1); [destruct (sin_range 1 ltac:(lra)); lra|apply sin_incr_1; lra].
  - pose proof (sin_lt_x (PI / 9) ltac:(lra)). lra.
Qed.
Lemma retract_pitch p1 p2 p3 d1 d3 i j a r A B : import_paths task_industrial = Ok [p1; p2; p3] -> nth_error (as_path d1 p1) i = Some a -> nth_error (as_path d3 p3) j = Some r -> allowed a A -> allowed r B ->
  vx (col2 (rot A)) = sin (PI / 9) /\ vx (col2 (rot B)) = sin (-20) /\ sin (-20) < -0.8 /\ - sin (PI / 9) > -0.4.
Proof.
  intros E I1 I2 A1 A2. destruct paths_industrial as (p1' & p2' & p3' & E' & H1 & H2 & H3). rewrite E in E'. injection E' as <- <- <-.
  assert (OL : forall a b k, exists x y z, on_line a b 9 k = [x; y; z]) by (intros; unfold on_line; eauto).
  destruct (euler_frames _ _ _ _ _ _ _ _ _ _ _ H1 I1 eq_refl (OL _ _) A1) as [_ (u & v & w & _ & V & _ & ->)]. destruct (euler_frames _ _ _ _ _ _ _ _ _ _ _ H3 I2 eq_refl (OL _ _) A2) as [_ (u' & v' & w' & _ & V' & _ & ->)].
  cbn [within] in V, V'. subst v v'. rewrite !rot_xyz_col2. cbn [vx]. destruct sin_20. split; auto. split; auto. replace (-20) with (- (20)) by lra. rewrite sin_neg. lra.
Qed.
Lemma obstacle_other_tilt p draws k tp T' : import_paths task_torch_obstacle = Ok [p] -> nth_error (as_path draws p) k = Some tp -> allowed tp T' ->
  exists T, sample_of kp_path 10 T /\ rot T <> rot T' /\ vz (col2 (rot T)) = -1 /\ 0.689 <= vx (col2 (rot T')).
Proof.
  intros E I A. destruct paths_obstacle as (p' & E' & H). rewrite E in E'. injection E' as <-. assert (OL : forall a b k, exists x y z, on_line a b 9 k = [x; y; z]) by (intros; unfold on_line; eauto).
  destruct (euler_frames _ _ _ _ _ _ _ _ _ _ _ H I eq_refl (OL _ _) A) as [_ (u & v & w & _ & V & _ & Q)]. cbn [within] in V. subst v.
  exists (kp_sample 10 0 19 0). split; [apply kp_samples; exists 0%nat, 19%nat, 0%nat; repeat split; lia|]. destruct pitch_range as [P _].
  assert (C : col2 (rot (kp_sample 10 0 19 0)) = V3 0 0 (-1)).
  { unfold kp_sample. cbn [rot]. rewrite rot_xyz_col2. replace (PI / 2 + INR 19 / 19 * (PI / 2)) with PI by (replace (INR 19) with 19 by (cbn; lra); lra). rewrite sin_PI, cos_PI, sin_0, cos_0. apply vec3_eq; cbn [vx vy vz]; lra. }
  assert (C' : vx (col2 (rot T')) = sin 2.356194490192345) by (rewrite Q, rot_xyz_col2; reflexivity). split; [|split; [rewrite C; reflexivity|rewrite C'; lra]].
  intros Er. rewrite <- Er, C in C'. cbn [vx] in C'. lra.
Qed.

(** ** Cases *)
Lemma armed_case T : rigid T -> armed (rebased kp_robot (KingpinProofs.reach T)) KingpinProofs.zeros /\ snd (fk (rebased kp_robot (KingpinProofs.reach T)) KingpinProofs.zeros) = Ok T.
Proof.
  intros RT. set (r := rebased kp_robot (KingpinProofs.reach T)). destruct torch_rigid as [TR TT]. assert (RF : rigid (tmul (frame kp_robot KingpinProofs.zeros 5) tool_tip)) by (apply rigid_tmul; auto; apply frame_rigid, rigid_eye).
  assert (G : good r) by (split; [unfold r; geoms; repeat constructor|apply Permutation.Permutation_refl]). destruct (kuka_rigid 0.18 0.6 0.62 0.115) as [KR KJ]. assert (J : joints_ok r) by exact KJ.
  split; [split; [exact G|]; split; [exact J|]; split; [split; [apply rigid_tmul; auto; apply tf_inverse_rigid; auto|]; split; [exact KR|]; split; [discriminate|]; intros tool tip E; injection E as <- <-; auto|]; split; [cbn; lia|reflexivity]|].
  rewrite fk_ok by (auto; cbn; lia). change (ndof r) with 6%nat. cbn [Nat.sub]. unfold tooled. change (r_tool r) with (Some (fst torch, tool_tip)).
  assert (E : frame r KingpinProofs.zeros 5 = tmul (KingpinProofs.reach T) (frame kp_robot KingpinProofs.zeros 5)).
  { unfold frame. rewrite <- fold_base. change (r_links r) with (r_links kp_robot). change (r_tfb r) with (KingpinProofs.reach T). change (r_tfb kp_robot) with eye4. rewrite tmul_1_r. reflexivity. }
  cbv beta iota. rewrite E. unfold KingpinProofs.reach. rewrite !tmul_assoc. rewrite tf_inverse_l by auto. rewrite tmul_1_r. reflexivity.
Qed.
Lemma euler_case p rpy rnd tp x y z a b c r s t : euler_at p rpy tp -> p = [x; y; z] -> rpy = [a; b; c] -> within a r -> within b s -> within c t -> allowed (as_pathpt rnd tp) (frame6 x y z r s t).
Proof.
  intros (e & -> & E) -> -> A B C. cbn [as_pathpt allowed]. split; [apply frame6_rigid|]. exists x, y, z, r, s, t. cbn [map] in E. pose proof (euler_fields _ _ _ _ _ _ _ _ _ E) as (F1 & F2 & _). rewrite F1, F2. cbn [firstn app]. split; auto. repeat constructor; auto.
Qed.
Lemma as_path_some draws path k pt : nth_error path k = Some pt -> nth_error (as_path draws path) k = Some (as_pathpt (draws k) pt).
Proof.
  intros E. unfold as_path. rewrite nth_error_map. assert (G : forall (l : list ppt) s k pt, nth_error l k = Some pt -> nth_error (combine (seq s (length l)) l) k = Some ((s + k)%nat, pt)).
  { clear. induction l as [|x l IH]; intros s [|k] pt H; cbn in *; try discriminate; [injection H as ->; do 2 f_equal; lia|]. rewrite (IH (S s) k pt H). do 2 f_equal. lia. }
  rewrite (G path 0%nat k pt E). reflexivity.
Qed.
Lemma industrial_case draws : exists p1 p2 p3 tp T r q, import_paths task_industrial = Ok [p1; p2; p3] /\ nth_error (as_path draws p2) 0 = Some tp /\ allowed tp T /\ armed r q /\ snd (fk r q) = Ok T.
Proof.
  destruct paths_industrial as (p1 & p2 & p3 & E & _ & [L H] & _). exists p1, p2, p3. destruct (nth_error_some p2 0 ltac:(lia)) as [pt I]. exists (as_pathpt (draws 0%nat) pt).
  pose proof (H _ _ I) as A. cbv beta in A. match type of A with euler_at ?l _ _ => remember l as l0 eqn:El end. unfold on_line in El. destruct l0 as [|x [|y [|z [|]]]]; try discriminate El. clear El.
  exists (frame6 x y z (-2.35619449) 0 3.14159265), (rebased kp_robot (KingpinProofs.reach (frame6 x y z (-2.35619449) 0 3.14159265))), KingpinProofs.zeros.
  split; [exact E|]. split; [apply as_path_some; exact I|]. split; [eapply euler_case; [exact A|reflexivity|reflexivity| | |]; cbn [within around t_lower t_upper]; pose proof PI_RGT_0; lra|]. apply armed_case. apply frame6_rigid.
Qed.
Lemma obstacle_case draws : exists p tp T r q, import_paths task_torch_obstacle = Ok [p] /\ nth_error (as_path draws p) 4 = Some tp /\ allowed tp T /\ armed r q /\ snd (fk r q) = Ok T.
Proof.
  destruct paths_obstacle as (p & E & [L H]). exists p. destruct (nth_error_some p 4 ltac:(lia)) as [pt I]. exists (as_pathpt (draws 4%nat) pt). pose proof (H _ _ I) as A.
  remember (on_line (V3 0.82585786 (-0.25) 0.12414214) (V3 0.82585786 0.25 0.12414214) 9 4) as l eqn:El. unfold on_line in El. cbn [vx vy vz] in El. destruct l as [|x [|y [|z [|]]]]; try discriminate El. clear El.
  exists (frame6 x y z 0 2.356194490192345 0), (rebased kp_robot (KingpinProofs.reach (frame6 x y z 0 2.356194490192345 0))), KingpinProofs.zeros.
  split; [exact E|]. split; [apply as_path_some; exact I|]. split; [eapply euler_case; [exact A|reflexivity|reflexivity| |reflexivity|]; cbn [within around t_lower t_upper]; lra|]. apply armed_case. apply frame6_rigid.
Qed.
Definition box_kuka : kuka := Kk kuka_torch (Arm2 0.18 0.6 0.62) (new_wrist 0.115).
Lemma box_case : kuka_ok 0.18 0.6 0.62 0.115 box_kuka /\ solid (k_rob box_kuka) /\ same_links (k_rob box_kuka) (KukaG 0.18 0.6 0.62 0.115) /\ r_tfb (k_rob box_kuka) = eye4 /\ r_tool (k_rob box_kuka) = Some torch.
Proof.
  destruct (kuka_rigid 0.18 0.6 0.62 0.115) as [KR KJ]. destruct kuka_torch_case as (G & _). destruct torch_rigid as [TR TT].
  split; [|split; [|split; [reflexivity|split; reflexivity]]].
  - destruct kuka_object_ok as [L A B C]. split; auto. split; [exact G|apply L].
  - split; [apply rigid_eye|]. split; [exact KR|]. split; [discriminate|]. intros tool tip E. injection E as <- <-. auto.
Qed.
Lemma passage_case : exists pts, passage_pts small_passage pts /\ Forall (fun pp => In q_id (pp_s pp)) pts /\ upright_fit q_id.
Proof.
  destruct path_passage as (path & E & [L H]). exists (map (fun tp => match tp with Io.PFree [x; y; z] => Pp (V3 x y z) [q_id] | _ => Pp v0 [q_id] end) path). split; [|split].
  - exists path. split; auto. apply Forall2_nth_error_intro; [rewrite map_length; auto|]. intros k tp pp I1 I2. rewrite nth_error_map, I1 in I2. injection I2 as <-. apply H in I1. subst tp. unfold on_line. cbn [pp_p vx vy vz]. split; [reflexivity|]. constructor; [apply q_id_unit|constructor].
  - rewrite Forall_map. apply Forall_forall. intros tp _. destruct tp as [[|x [|y [|z [|]]]]| |]; left; reflexivity.
  - assert (Q : qrot q_id = mid) by (rewrite qrot_unit by apply q_id_unit; unfold unit_rot, q_id, mid; cbv zeta; cbn [qw qx qy qz]; f_equal; ring). unfold upright_fit. rewrite Q. split; [reflexivity|]. cbn [mid m00 m01]. rewrite Rabs_R1, Rabs_R0. lra.
Qed.

(** ** What the planner can still return *)
Lemma euler_pt_ok n p rpy rnd tp x y z a b c : euler_at p rpy tp -> p = [x; y; z] -> rpy = [a; b; c] -> proper a -> proper b -> proper c -> pt_ok n (as_pathpt rnd tp).
Proof.
  intros (e & -> & E) -> -> A B C. cbn [as_pathpt pt_ok]. split; [eauto|]. cbn [map] in E. pose proof (euler_fields _ _ _ _ _ _ _ _ _ E) as (F1 & F2 & _). rewrite F1, F2. cbn [firstn app]. repeat (constructor; try exact I; auto).
Qed.
Lemma euler_pts_ok n draws path m f rpy a b c : points path m (fun k tp => euler_at (f k) rpy tp) -> (forall k, exists x y z, f k = [x; y; z]) -> rpy = [a; b; c] -> proper a -> proper b -> proper c -> Forall (pt_ok n) (as_path draws path).
Proof.
  intros [_ H] Ef Er A B C. apply Forall_forall. intros tp I. apply In_nth_error in I. destruct I as (k & I). apply as_path_nth in I. destruct I as (pt & I & ->). apply H in I. destruct (Ef k) as (x & y & z & Ek). eapply euler_pt_ok; eauto.
Qed.
Lemma proper_around m w : 0 <= w -> proper (around m w).
Proof. intros. cbn. split; [lra|lia]. Qed.
Lemma blocked_plan prim to32 a1 a2 d4 d6 k {K : CostStruct} (sq_acc : K -> R -> R -> R -> K) pq ypr fuel n scene path method ow rows c i tp :
  a2 * d4 <> 0 -> kuka_ok a1 a2 d4 d6 k -> exact_prim prim -> solid (k_rob k) -> r_tool (k_rob k) = Some torch -> rigid_coll scene -> Forall (pt_ok n) path -> nth_error path i = Some tp ->
  (forall q T, armed (k_rob k) q -> allowed tp T -> snd (fk (k_rob k) q) = Ok T -> snd (robot_collision prim (k_rob k) q scene) = Ok true) ->
  snd (kuka_plan prim to32 sq_acc pq (pt_samples ypr fuel n) scene path method ow k) = Ok (GspOk rows c) ->
  exists q1 q2 q3 q4 q5 q6, nth_error rows i = Some (map to32 [q1; q2; q3; q4; q5; q6]) /\ (cos q3 = 0 \/ sin q5 = 0).
Proof.
  intros Hne Hk X S0 T0 C P Ip B G. pose proof (kuka_plan_sound prim to32 a1 a2 d4 d6 Hne k Hk sq_acc pq ypr fuel n scene path method ow rows c X S0 C P G) as F.
  destruct (PlanningIter.Forall2_nth_l _ _ _ F _ _ Ip) as (row & Ir & q & T & -> & A & (q1 & q2 & q3 & q4 & q5 & q6 & F0 & -> & Ef & E1 & _) & Cl).
  exists q1, q2, q3, q4, q5, q6. split; [exact Ir|]. destruct (Req_dec (cos q3) 0) as [|N3]; auto. destruct (Req_dec (sin q5) 0) as [|N5]; auto. exfalso. rewrite (E1 N5 N3) in Ef.
  pose proof (ko_rob _ _ _ _ _ Hk) as L. pose proof (like_ndof _ _ L) as Nd. change (ndof (Kuka a1 a2 d4 d6)) with 6%nat in Nd.
  assert (AR : armed (k_rob k) [q1; q2; q3; q4; q5; q6]) by (split; [apply L|]; split; [eapply like_joints; [exact L|apply Kuka_joints]|]; split; [exact S0|]; split; [rewrite Nd; cbn; lia|exact T0]).
  pose proof (B _ T AR A Ef) as H. pose proof (proj2 (free_iff_clear prim (k_rob k) scene [q1; q2; q3; q4; q5; q6] X (proj1 AR) (proj1 (proj2 AR)) ltac:(rewrite Nd; cbn; lia) S0 C) Cl) as H'. unfold hit in H'. rewrite H in H'. discriminate.
Qed.

(** the same with the scene as read from its file *)
Lemma industrial_read prim N scene r q p1 p2 p3 draws tp T : exact_prim prim -> decimal_reader N -> import_doc N scene_industrial = Ok scene -> armed r q -> import_paths task_industrial = Ok [p1; p2; p3] ->
  nth_error (as_path draws p1) 9 = Some tp \/ nth_error (as_path draws p2) 0 = Some tp \/ nth_error (as_path draws p3) 0 = Some tp -> allowed tp T -> snd (fk r q) = Ok T ->
  snd (robot_collision prim r q scene) = Ok true.
Proof. intros X D E. rewrite (import_industrial N D) in E. injection E as <-. intros. eapply industrial_blocked; eauto. Qed.
Lemma obstacle_read prim N scene r q p draws k tp T : exact_prim prim -> decimal_reader N -> import_doc N scene_torch_obstacle = Ok scene -> armed r q -> import_paths task_torch_obstacle = Ok [p] ->
  k = 4%nat \/ k = 5%nat -> nth_error (as_path draws p) k = Some tp -> allowed tp T -> snd (fk r q) = Ok T -> snd (robot_collision prim r q scene) = Ok true.
Proof. intros X D E. rewrite (import_obstacle N D) in E. injection E as <-. intros. eapply obstacle_blocked; eauto. Qed.
Lemma box_read prim N scene r q : exact_prim prim -> decimal_reader N -> import_doc N scene_path_in_box = Ok scene -> good r -> solid r -> same_links r (KukaG 0.18 0.6 0.62 0.115) -> r_tfb r = eye4 -> (6 <= length q)%nat ->
  snd (robot_collision prim r q scene) = Ok true.
Proof. intros X D E. rewrite (import_box N D) in E. injection E as <-. intros. apply kuka_in_box; auto. Qed.
Lemma passage_read prim N scene r q path draws tp T : exact_prim prim -> decimal_reader N -> import_doc N scene_small_passage = Ok scene -> armed r q -> import_paths task_small_passage = Ok [path] -> nth_error (as_path draws path) 7 = Some tp ->
  allowed tp T -> snd (fk r q) = Ok T -> snd (robot_collision prim r q scene) = Ok false -> 0.745 <= vz (col2 (rot T)).
Proof. intros X D E. rewrite (import_passage N D) in E. injection E as <-. intros. eapply passage_robot; eauto. Qed.
Lemma box_editor_read prim to32 N (k0 : kuka) {K : CostStruct} (sq_acc : K -> R -> R -> R -> K) pq ypr fuel scene_at paths_at wdir vs : exact_prim prim -> decimal_reader N ->
  kuka_ok 0.18 0.6 0.62 0.115 k0 -> solid (k_rob k0) -> same_links (k_rob k0) (KukaG 0.18 0.6 0.62 0.115) -> r_tfb (k_rob k0) = eye4 ->
  scene_at (wdir ++ "/scenes/path_in_box.urdf")%string = import_doc N scene_path_in_box -> (forall n, ~ In (SubmitFileName n) vs) -> e_solution (kuka_run prim to32 sq_acc pq ypr fuel scene_at paths_at (new_editor k0 wdir) vs) = None.
Proof. intros X D K0 S0 SL B0 E. rewrite (import_box N D) in E. apply box_editor; auto. Qed.

Lemma import_rigid N doc scene : decimal_reader N -> In doc [scene_industrial; scene_torch_obstacle] -> import_doc N doc = Ok scene -> rigid_coll scene.
Proof. intros D [<-|[<-|[]]]; [rewrite (import_industrial N D)|rewrite (import_obstacle N D)]; intros E; injection E as <-; apply boxes_rigid. Qed.
Lemma industrial_plan prim to32 a1 a2 d4 d6 k N scene {K : CostStruct} (sq_acc : K -> R -> R -> R -> K) pq ypr fuel n p1 p2 p3 p draws method ow rows c :
  a2 * d4 <> 0 -> kuka_ok a1 a2 d4 d6 k -> exact_prim prim -> solid (k_rob k) -> r_tool (k_rob k) = Some torch -> decimal_reader N -> import_doc N scene_industrial = Ok scene ->
  import_paths task_industrial = Ok [p1; p2; p3] -> In p [p1; p2; p3] ->
  snd (kuka_plan prim to32 sq_acc pq (pt_samples ypr fuel n) scene (as_path draws p) method ow k) = Ok (GspOk rows c) ->
  exists i q1 q2 q3 q4 q5 q6, nth_error rows i = Some (map to32 [q1; q2; q3; q4; q5; q6]) /\ (cos q3 = 0 \/ sin q5 = 0).
Proof.
  intros Hne Hk X S0 T0 D Ei E Ip G. pose proof (import_rigid N _ _ D ltac:(left; reflexivity) Ei) as C. destruct paths_industrial as (p1' & p2' & p3' & E' & H1 & H2 & H3). rewrite E in E'. injection E' as <- <- <-.
  assert (OL : forall a b k, exists x y z, on_line a b 9 k = [x; y; z]) by (intros; unfold on_line; eauto). pose proof PI_RGT_0 as Pp.
  assert (Q : exists i tp, nth_error (as_path draws p) i = Some tp /\ (nth_error (as_path draws p1) 9 = Some tp \/ nth_error (as_path draws p2) 0 = Some tp \/ nth_error (as_path draws p3) 0 = Some tp) /\ Forall (pt_ok n) (as_path draws p)).
  { destruct Ip as [<-|[<-|[<-|[]]]].
    - destruct (nth_error_some p1 9 ltac:(destruct H1; lia)) as [pt I1]. exists 9%nat. eexists. split; [apply as_path_some; exact I1|]. split; [left; apply as_path_some; exact I1|]. eapply euler_pts_ok; [exact H1|apply OL|reflexivity| | |]; try exact I; apply proper_around; lra.
    - destruct (nth_error_some p2 0 ltac:(destruct H2; lia)) as [pt I1]. exists 0%nat. eexists. split; [apply as_path_some; exact I1|]. split; [right; left; apply as_path_some; exact I1|]. eapply euler_pts_ok; [exact H2|apply OL|reflexivity| | |]; try exact I; apply proper_around; lra.
    - destruct (nth_error_some p3 0 ltac:(destruct H3; lia)) as [pt I1]. exists 0%nat. eexists. split; [apply as_path_some; exact I1|]. split; [right; right; apply as_path_some; exact I1|]. eapply euler_pts_ok; [exact H3|apply OL|reflexivity| | |]; try exact I; apply proper_around; lra. }
  destruct Q as (i & tp & It & B & P). exists i. eapply (blocked_plan prim to32 a1 a2 d4 d6 k sq_acc pq ypr fuel n scene); eauto. intros q T A AT Ef. eapply industrial_read; eauto.
Qed.
Lemma obstacle_plan prim to32 a1 a2 d4 d6 k N scene {K : CostStruct} (sq_acc : K -> R -> R -> R -> K) pq ypr fuel n p draws method ow rows c i :
  a2 * d4 <> 0 -> kuka_ok a1 a2 d4 d6 k -> exact_prim prim -> solid (k_rob k) -> r_tool (k_rob k) = Some torch -> decimal_reader N -> import_doc N scene_torch_obstacle = Ok scene ->
  import_paths task_torch_obstacle = Ok [p] -> i = 4%nat \/ i = 5%nat ->
  snd (kuka_plan prim to32 sq_acc pq (pt_samples ypr fuel n) scene (as_path draws p) method ow k) = Ok (GspOk rows c) ->
  exists q1 q2 q3 q4 q5 q6, nth_error rows i = Some (map to32 [q1; q2; q3; q4; q5; q6]) /\ (cos q3 = 0 \/ sin q5 = 0).
Proof.
  intros Hne Hk X S0 T0 D Ei E Hi G. pose proof (import_rigid N _ _ D ltac:(right; left; reflexivity) Ei) as C. destruct paths_obstacle as (p' & E' & H). rewrite E in E'. injection E' as <-.
  assert (OL : forall a b k, exists x y z, on_line a b 9 k = [x; y; z]) by (intros; unfold on_line; eauto).
  destruct (nth_error_some p i ltac:(destruct H; lia)) as [pt I1]. pose proof (as_path_some draws p i pt I1) as It.
  assert (P : Forall (pt_ok n) (as_path draws p)) by (eapply euler_pts_ok; [exact H|apply OL|reflexivity| | |]; try exact I; apply proper_around; lra).
  eapply (blocked_plan prim to32 a1 a2 d4 d6 k sq_acc pq ypr fuel n scene); eauto. intros q T A AT Ef. eapply obstacle_read; eauto.
Qed.
(** a robot of one joint without boxes, holding the torch with its tip at T *)
Definition holder (T : mat4) : robot :=
  Rb [new_link (DH 0 0 0 0) JR (Coll [] [])] [(- PI, PI)] None (Some torch) (tmul T (tf_inverse tool_tip)) band false [0%nat].
Lemma holder_frame T : frame (holder T) [0] 0 = tmul T (tf_inverse tool_tip).
Proof.
  unfold frame, holder. cbn [r_links r_tfb combine firstn fold_left fst snd].
  assert (E : lspec (new_link (DH 0 0 0 0) JR (Coll [] [])) 0 = eye4). { unfold lspec, new_link. cbn [l_jt l_dh]. rewrite dhm_dhx. unfold dhx. cbn [da dalpha dd dtheta]. rewrite ?cos_0, ?sin_0. unfold eye4, mid, v0. f_equal; f_equal; ring. }
  rewrite E. apply tmul_1_r.
Qed.
Lemma holder_armed T : rigid T -> armed (holder T) [0] /\ snd (fk (holder T) [0]) = Ok T.
Proof.
  intros RT. destruct torch_rigid as [TR TT]. assert (G : good (holder T)) by (split; [repeat constructor|apply Permutation.Permutation_refl]). assert (J : joints_ok (holder T)) by (repeat constructor; discriminate).
  split; [split; [exact G|]; split; [exact J|]; split; [split; [apply rigid_tmul; auto; apply tf_inverse_rigid; auto|]; split; [repeat constructor|]; split; [discriminate|]; intros tool tip E; injection E as <- <-; auto|]; split; [cbn; lia|reflexivity]|].
  rewrite fk_ok by (auto; cbn; lia). change (ndof (holder T)) with 1%nat. cbv iota. rewrite holder_frame. unfold tooled. change (r_tool (holder T)) with (Some (fst torch, tool_tip)). cbv beta iota. rewrite tmul_assoc, tf_inverse_l by auto. rewrite tmul_1_r. reflexivity.
Qed.
Lemma passage_robot_case draws : exists path tp r q T, import_paths task_small_passage = Ok [path] /\ nth_error (as_path draws path) 7 = Some tp /\ allowed tp T /\ armed r q /\ snd (fk r q) = Ok T /\
  forall prim, exact_prim prim -> snd (robot_collision prim r q (passage_boxes 0.8)) = Ok false.
Proof.
  destruct path_passage_2 as (path & E & [L H]). exists path. destruct (nth_error_some path 7 ltac:(lia)) as [pt I7]. exists (as_pathpt (draws 7%nat) pt). pose proof (H _ _ I7) as ->. set (T := M4 mid (V3 0.8 0 0) (V3 0 0 0) 1).
  assert (RT : rigid T) by (split; cbn; auto; apply rotation_mid). destruct (holder_armed T RT) as [A F]. exists (holder T), [0], T.
  split; [rewrite same_passage, E; reflexivity|]. split; [apply as_path_some; exact I7|]. split; [split; [exact RT|]; cbn [as_pathpt allowed T pos]; unfold on_line; cbn [vx vy vz]; replace (INR 7) with 7 by (cbn; lra); replace (INR 14) with 14 by (cbn; lra); f_equal; [lra|f_equal; [lra|f_equal; lra]]|]. split; [exact A|]. split; [exact F|].
  intros prim X. destruct A as (G & J & S0 & N0 & T0). destruct (collision_correct prim (holder T) [0] (passage_boxes 0.8) G J ltac:(cbn; lia) ltac:(cbn; lia)) as (b & Eb & _).
  assert (C : hit prim (holder T) (passage_boxes 0.8) [0] = false).
  { apply (free_iff_clear prim); auto; [apply boxes_rigid|]. split; [|discriminate]. intros x [(b0 & Q & _)|[(i & l & Q & B)|(tool & tip & Q & B)]] Hx; [discriminate| |].
    - destruct i as [|[|]]; try discriminate. injection Q as <-. destruct B as (s & tf & (k & B1 & _) & _). destruct k; discriminate B1.
    - injection Q as <- <-. change (ndof (holder T) - 1)%nat with 0%nat in B. rewrite holder_frame in B. destruct torch_rigid as [TR TT].
      assert (ET : tmul (tmul T (tf_inverse tool_tip)) tool_tip = T) by (rewrite tmul_assoc, tf_inverse_l by auto; apply tmul_1_r).
      apply (passage_free prim (tmul T (tf_inverse tool_tip)) 0.8 0 X) with (x := x); rewrite ?ET; auto; [apply rigid_tmul; auto; apply tf_inverse_rigid; auto|]. cbn [T rot mid m00 m01]. rewrite Rabs_R1, Rabs_R0. lra. }
  unfold hit in C. rewrite Eb in *. subst b. reflexivity.
Qed.
