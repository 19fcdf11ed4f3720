(** * 3-vectors, 3x3 and 4x4 real matrices, rigid transforms, atan2.

    numpy arrays of floats are modelled by exact real matrices; a 4x4 matrix is
    kept in blocks: rotation part [:3,:3], position [:3,3], bottom row [3,:3]
    and corner [3,3]. *)
From Coq Require Import Reals Lra Psatz List Bool.
Import ListNotations.
Local Open Scope R_scope.

Record vec3 : Type := V3 { vx : R; vy : R; vz : R }.
Record mat3 : Type := M3 { m00 : R; m01 : R; m02 : R; m10 : R; m11 : R; m12 : R; m20 : R; m21 : R; m22 : R }.
Record mat4 : Type := M4 { rot : mat3; pos : vec3; brow : vec3; bww : R }.

Definition vadd (u v : vec3) := V3 (vx u + vx v) (vy u + vy v) (vz u + vz v).
Definition vsub (u v : vec3) := V3 (vx u - vx v) (vy u - vy v) (vz u - vz v).
Definition vopp (u : vec3) := V3 (- vx u) (- vy u) (- vz u).
Definition vscale (k : R) (u : vec3) := V3 (k * vx u) (k * vy u) (k * vz u).
Definition vdot (u v : vec3) := vx u * vx v + vy u * vy v + vz u * vz v.
Definition cross (u v : vec3) := V3 (vy u * vz v - vz u * vy v) (vz u * vx v - vx u * vz v) (vx u * vy v - vy u * vx v).
Definition v0 := V3 0 0 0.
Definition norm2 (u : vec3) := vdot u u.

Definition mid := M3 1 0 0 0 1 0 0 0 1.
Definition mapply (A : mat3) (v : vec3) :=
  V3 (m00 A * vx v + m01 A * vy v + m02 A * vz v) (m10 A * vx v + m11 A * vy v + m12 A * vz v) (m20 A * vx v + m21 A * vy v + m22 A * vz v).
Definition mmul (A B : mat3) :=
  M3 (m00 A * m00 B + m01 A * m10 B + m02 A * m20 B) (m00 A * m01 B + m01 A * m11 B + m02 A * m21 B) (m00 A * m02 B + m01 A * m12 B + m02 A * m22 B)
     (m10 A * m00 B + m11 A * m10 B + m12 A * m20 B) (m10 A * m01 B + m11 A * m11 B + m12 A * m21 B) (m10 A * m02 B + m11 A * m12 B + m12 A * m22 B)
     (m20 A * m00 B + m21 A * m10 B + m22 A * m20 B) (m20 A * m01 B + m21 A * m11 B + m22 A * m21 B) (m20 A * m02 B + m21 A * m12 B + m22 A * m22 B).
Definition madd (A B : mat3) :=
  M3 (m00 A + m00 B) (m01 A + m01 B) (m02 A + m02 B) (m10 A + m10 B) (m11 A + m11 B) (m12 A + m12 B) (m20 A + m20 B) (m21 A + m21 B) (m22 A + m22 B).
Definition mtr (A : mat3) := M3 (m00 A) (m10 A) (m20 A) (m01 A) (m11 A) (m21 A) (m02 A) (m12 A) (m22 A).
Definition mopp (A : mat3) := M3 (- m00 A) (- m01 A) (- m02 A) (- m10 A) (- m11 A) (- m12 A) (- m20 A) (- m21 A) (- m22 A).
Definition mouter (u v : vec3) :=
  M3 (vx u * vx v) (vx u * vy v) (vx u * vz v) (vy u * vx v) (vy u * vy v) (vy u * vz v) (vz u * vx v) (vz u * vy v) (vz u * vz v).
Definition mdet (A : mat3) :=
  m00 A * (m11 A * m22 A - m12 A * m21 A) - m01 A * (m10 A * m22 A - m12 A * m20 A) + m02 A * (m10 A * m21 A - m11 A * m20 A).
(** columns *)
Definition col0 (A : mat3) := V3 (m00 A) (m10 A) (m20 A).
Definition col1 (A : mat3) := V3 (m01 A) (m11 A) (m21 A).
Definition col2 (A : mat3) := V3 (m02 A) (m12 A) (m22 A).

Definition eye4 := M4 mid v0 v0 1.
(** np.dot of two 4x4 matrices *)
Definition tmul (A B : mat4) :=
  M4 (madd (mmul (rot A) (rot B)) (mouter (pos A) (brow B)))
     (vadd (mapply (rot A) (pos B)) (vscale (bww B) (pos A)))
     (vadd (mapply (mtr (rot B)) (brow A)) (vscale (bww A) (brow B)))
     (vdot (brow A) (pos B) + bww A * bww B).

(** np.dot(tf[:3,:3], v) + tf[:3,3] *)
Definition tapply (T : mat4) (v : vec3) := vadd (mapply (rot T) v) (pos T).

(** ** extensionality *)
Lemma vec3_eq u v : vx u = vx v -> vy u = vy v -> vz u = vz v -> u = v.
Proof. destruct u, v; cbn; congruence. Qed.
Lemma mat3_eq A B : m00 A = m00 B -> m01 A = m01 B -> m02 A = m02 B -> m10 A = m10 B -> m11 A = m11 B -> m12 A = m12 B ->
  m20 A = m20 B -> m21 A = m21 B -> m22 A = m22 B -> A = B.
Proof. destruct A, B; cbn; congruence. Qed.
Lemma mat4_eq A B : rot A = rot B -> pos A = pos B -> brow A = brow B -> bww A = bww B -> A = B.
Proof. destruct A, B; cbn; congruence. Qed.

Ltac mred := cbn [vadd vsub vopp vscale vdot cross v0 norm2 mid mapply mmul madd mtr mopp mouter mdet col0 col1 col2 eye4 tmul tapply
  vx vy vz m00 m01 m02 m10 m11 m12 m20 m21 m22 rot pos brow bww] in *.
Ltac munf := unfold norm2, tapply, eye4, tmul, vadd, vsub, vopp, vscale, vdot, cross, v0, mid, mapply, mmul, madd, mtr, mopp, mouter, mdet, col0, col1, col2 in *;
  cbn [vx vy vz m00 m01 m02 m10 m11 m12 m20 m21 m22 rot pos brow bww] in *.
Ltac vring := repeat match goal with u : vec3 |- _ => destruct u | A : mat3 |- _ => destruct A | A : mat4 |- _ => destruct A end;
  munf; repeat first [apply vec3_eq | apply mat3_eq | apply mat4_eq]; cbn [vx vy vz m00 m01 m02 m10 m11 m12 m20 m21 m22 rot pos brow bww]; try ring.

Lemma mmul_assoc A B C : mmul (mmul A B) C = mmul A (mmul B C). Proof. vring. Qed.
Lemma mmul_1_l A : mmul mid A = A. Proof. vring. Qed.
Lemma mmul_1_r A : mmul A mid = A. Proof. vring. Qed.
Lemma mtr_mmul A B : mtr (mmul A B) = mmul (mtr B) (mtr A). Proof. vring. Qed.
Lemma mtr_mtr A : mtr (mtr A) = A. Proof. vring. Qed.
Lemma mtr_mid : mtr mid = mid. Proof. reflexivity. Qed.
Lemma mdet_mmul A B : mdet (mmul A B) = mdet A * mdet B. Proof. vring. Qed.
Lemma mdet_mtr A : mdet (mtr A) = mdet A. Proof. vring. Qed.
Lemma mapply_mmul A B v : mapply (mmul A B) v = mapply A (mapply B v). Proof. vring. Qed.
Lemma mapply_1 v : mapply mid v = v. Proof. vring. Qed.
Lemma mapply_add A u v : mapply A (vadd u v) = vadd (mapply A u) (mapply A v). Proof. vring. Qed.
Lemma mapply_scale A k v : mapply A (vscale k v) = vscale k (mapply A v). Proof. vring. Qed.
Lemma vdot_mapply A u v : vdot (mapply A u) v = vdot u (mapply (mtr A) v). Proof. vring. Qed.
Lemma tmul_assoc A B C : tmul (tmul A B) C = tmul A (tmul B C). Proof. vring. Qed.
Lemma tmul_1_l A : tmul eye4 A = A. Proof. vring. Qed.
Lemma tmul_1_r A : tmul A eye4 = A. Proof. vring. Qed.

(** ** Rotations and rigid transforms *)
(** orthonormal columns and determinant one *)
Record rotation (A : mat3) : Prop := { rot_orth : mmul (mtr A) A = mid; rot_det : mdet A = 1 }.
Record rigid (T : mat4) : Prop := { rigid_rot : rotation (rot T); rigid_brow : brow T = v0; rigid_bww : bww T = 1 }.

(** A left inverse of a 3x3 matrix is a right inverse (adjugate argument). *)
Definition madj (A : mat3) :=
  M3 (m11 A * m22 A - m12 A * m21 A) (m02 A * m21 A - m01 A * m22 A) (m01 A * m12 A - m02 A * m11 A)
     (m12 A * m20 A - m10 A * m22 A) (m00 A * m22 A - m02 A * m20 A) (m02 A * m10 A - m00 A * m12 A)
     (m10 A * m21 A - m11 A * m20 A) (m01 A * m20 A - m00 A * m21 A) (m00 A * m11 A - m01 A * m10 A).
Definition mscale k (A : mat3) := M3 (k * m00 A) (k * m01 A) (k * m02 A) (k * m10 A) (k * m11 A) (k * m12 A) (k * m20 A) (k * m21 A) (k * m22 A).
Lemma madj_r A : mmul A (madj A) = mscale (mdet A) mid. Proof. destruct A. unfold madj, mscale. vring. Qed.
Lemma madj_l A : mmul (madj A) A = mscale (mdet A) mid. Proof. destruct A. unfold madj, mscale. vring. Qed.
Lemma mscale_1 A : mscale 1 A = A. Proof. destruct A. unfold mscale. vring. Qed.

Lemma rotation_inv_r A : rotation A -> mmul A (mtr A) = mid.
Proof.
  intros [H D]. assert (E : mtr A = madj A).
  { rewrite <- (mmul_1_r (mtr A)). rewrite <- (mscale_1 mid), <- D, <- madj_r, <- mmul_assoc, H, mmul_1_l. reflexivity. }
  rewrite E, madj_r, D. apply mscale_1.
Qed.
Lemma rotation_tr A : rotation A -> rotation (mtr A).
Proof. intros H. split; [rewrite mtr_mtr; apply rotation_inv_r; auto|rewrite mdet_mtr; apply H]. Qed.
Lemma rotation_mmul A B : rotation A -> rotation B -> rotation (mmul A B).
Proof.
  intros [HA DA] [HB DB]. split.
  - rewrite mtr_mmul, mmul_assoc, <- (mmul_assoc (mtr A)), HA, mmul_1_l. exact HB.
  - rewrite mdet_mmul, DA, DB. ring.
Qed.
Lemma rotation_mid : rotation mid.
Proof. split; [vring|vring]. Qed.
Lemma rigid_eye : rigid eye4.
Proof. split; [apply rotation_mid|reflexivity|reflexivity]. Qed.

(** product of a matrix with bottom row (0,0,0,1) with another *)
Lemma tmul_blocks A B : brow A = v0 -> bww A = 1 -> brow B = v0 -> bww B = 1 ->
  tmul A B = M4 (mmul (rot A) (rot B)) (vadd (mapply (rot A) (pos B)) (pos A)) v0 1.
Proof. destruct A as [RA pA bA wA], B as [RB pB bB wB]. cbn. intros -> -> -> ->. vring. Qed.
Lemma rigid_tmul A B : rigid A -> rigid B -> rigid (tmul A B).
Proof.
  intros [RA bA wA] [RB bB wB]. rewrite tmul_blocks by auto. split; cbn; auto. apply rotation_mmul; auto.
Qed.
Lemma tapply_tmul A B v : rigid A -> rigid B -> tapply (tmul A B) v = tapply A (tapply B v).
Proof. intros [_ bA wA] [_ bB wB]. rewrite tmul_blocks by auto. unfold tapply. cbn [rot pos]. rewrite mapply_mmul, mapply_add. vring. Qed.

Lemma rotation_norm A v : rotation A -> norm2 (mapply A v) = norm2 v.
Proof. intros H. unfold norm2. rewrite vdot_mapply, <- mapply_mmul, (rot_orth _ H), mapply_1. reflexivity. Qed.

(** ** atan2 *)
(** numpy.arctan2 on real arguments (no signed zeros) *)
Definition atan2 (y x : R) : R :=
  match total_order_T x 0 with
  | inleft (left _) => (* x < 0 *)
      match Rle_dec 0 y with left _ => atan (y / x) + PI | right _ => atan (y / x) - PI end
  | inleft (right _) => (* x = 0 *)
      match total_order_T y 0 with
      | inleft (left _) => - (PI / 2)
      | inleft (right _) => 0
      | inright _ => PI / 2
      end
  | inright _ => atan (y / x)
  end.

Lemma atan_cos_sin t : cos (atan t) = 1 / sqrt (1 + t²) /\ sin (atan t) = t / sqrt (1 + t²).
Proof.
  pose proof (atan_bound t) as [B1 B2]. set (a := atan t) in *.
  assert (Hc : 0 < cos a) by (apply cos_gt_0; lra).
  assert (Ht : tan a = t) by apply tan_atan || apply atan_right_inv.
  unfold tan in Ht. pose proof (sin2_cos2 a) as H2. unfold Rsqr in *.
  assert (Hs : sin a = t * cos a) by (rewrite <- Ht; field; lra).
  assert (Hp : 0 < 1 + t * t) by nra.
  assert (Hq : cos a * cos a = / (1 + t * t)). { apply (Rmult_eq_reg_l (1 + t * t)); [|lra]. rewrite Rinv_r by lra. rewrite Hs in H2. nra. }
  assert (Hcc : cos a = / sqrt (1 + t * t)).
  { apply Rsqr_inj; [lra|left; apply Rinv_0_lt_compat, sqrt_lt_R0; auto|]. unfold Rsqr. rewrite Hq.
    rewrite <- Rinv_mult. rewrite sqrt_sqrt by lra. reflexivity. }
  rewrite Hs, Hcc. split; field; apply Rgt_not_eq, sqrt_lt_R0; auto.
Qed.

Lemma sqrt_div_pos x y : 0 < x -> sqrt (1 + (y / x)²) = sqrt (x² + y²) / x.
Proof.
  intros H. replace (1 + (y / x)²) with ((x² + y²) / x²) by (unfold Rsqr; field; lra).
  rewrite sqrt_div_alt by (unfold Rsqr; nra). f_equal. rewrite sqrt_Rsqr; lra.
Qed.
Lemma sqrt_div_neg x y : x < 0 -> sqrt (1 + (y / x)²) = - sqrt (x² + y²) / x.
Proof.
  intros H. replace (y / x) with ((- y) / (- x)) by (field; lra). rewrite sqrt_div_pos by lra.
  rewrite <- !Rsqr_neg. field. lra.
Qed.

Lemma atan2_spec y x : 0 < x² + y² ->
  cos (atan2 y x) = x / sqrt (x² + y²) /\ sin (atan2 y x) = y / sqrt (x² + y²).
Proof.
  intros Hp. assert (Hs : 0 < sqrt (x² + y²)) by (apply sqrt_lt_R0; auto).
  unfold atan2. destruct (total_order_T x 0) as [[Hx|Hx]|Hx].
  - assert (E : cos (atan (y / x)) = - x / sqrt (x² + y²) /\ sin (atan (y / x)) = - y / sqrt (x² + y²)).
    { destruct (atan_cos_sin (y / x)) as [-> ->]. rewrite (sqrt_div_neg x y Hx). split; field; lra. }
    destruct E as [E1 E2]. destruct (Rle_dec 0 y).
    + rewrite neg_cos, neg_sin, E1, E2. split; field; lra.
    + rewrite cos_minus, sin_minus, cos_PI, sin_PI, E1, E2. split; field; lra.
  - subst x. replace (0² + y²) with (y²) in * by (unfold Rsqr; ring). destruct (total_order_T y 0) as [[Hy|Hy]|Hy].
    + rewrite cos_neg, sin_neg, cos_PI2, sin_PI2. rewrite <- Rsqr_neg_minus in * || idtac. replace (y²) with ((- y)²) by (symmetry; apply Rsqr_neg). rewrite sqrt_Rsqr by lra. split; field; lra.
    + subst y. unfold Rsqr in Hp. lra.
    + rewrite cos_PI2, sin_PI2, sqrt_Rsqr by lra. split; field; lra.
  - destruct (atan_cos_sin (y / x)) as [-> ->]. rewrite (sqrt_div_pos x y Hx). split; field; lra.
Qed.

Lemma atan2_bound y x : - PI < atan2 y x <= PI.
Proof.
  pose proof PI_RGT_0. unfold atan2. destruct (total_order_T x 0) as [[Hx|Hx]|Hx].
  - pose proof (atan_bound (y / x)) as [B1 B2]. destruct (Rle_dec 0 y) as [Hy|Hy].
    + assert (atan (y / x) <= 0).
      { assert (y / x <= 0). { unfold Rdiv. assert (/ x < 0) by (apply Rinv_lt_0_compat; auto). nra. }
        destruct (Req_dec (y / x) 0) as [->|]; [rewrite atan_0; lra|]. left. rewrite <- atan_0. apply atan_increasing. lra. }
      lra.
    + assert (0 < atan (y / x)).
      { rewrite <- atan_0. apply atan_increasing. unfold Rdiv. assert (/ x < 0) by (apply Rinv_lt_0_compat; auto). nra. }
      lra.
  - destruct (total_order_T y 0) as [[Hy|Hy]|Hy]; lra.
  - pose proof (atan_bound (y / x)) as [B1 B2]. lra.
Qed.
Lemma atan2_0_0 : atan2 0 0 = 0.
Proof. unfold atan2. destruct (total_order_T 0 0) as [[H|H]|H]; try lra. Qed.

(** Two angles in (-PI, PI] with the same cosine and sine are equal. *)
Lemma angle_unique a b : - PI < a <= PI -> - PI < b <= PI -> cos a = cos b -> sin a = sin b -> a = b.
Proof.
  intros Ha Hb Hc Hs. 
  assert (H : cos (a - b) = 1). { rewrite cos_minus, Hc, Hs. pose proof (sin2_cos2 b) as H. unfold Rsqr in H. lra. }
  assert (Hd : - (2 * PI) < a - b < 2 * PI) by lra.
  destruct (Rtotal_order (a - b) 0) as [Hl|[He|Hg]]; [|lra|].
  - exfalso. rewrite <- cos_neg in H. assert (Hx : 0 < - (a - b) < 2 * PI) by lra. revert H Hx. generalize (- (a - b)). clear.
    intros t H [H1 H2]. replace t with (2 * (t / 2)) in H by field. rewrite cos_2a_sin in H.
    assert (0 < sin (t / 2)) by (apply sin_gt_0; lra). nra.
  - exfalso. assert (Hx : 0 < (a - b) < 2 * PI) by lra. revert H Hx. generalize (a - b). clear.
    intros t H [H1 H2]. replace t with (2 * (t / 2)) in H by field. rewrite cos_2a_sin in H.
    assert (0 < sin (t / 2)) by (apply sin_gt_0; lra). nra.
Qed.
(** atan2 recovers an angle from a positive multiple of its sine and cosine *)
Lemma atan2_sin_cos r a : 0 < r -> - PI < a <= PI -> atan2 (r * sin a) (r * cos a) = a.
Proof.
  intros Hr Ha. pose proof (sin2_cos2 a) as H2.
  assert (E : (r * cos a)² + (r * sin a)² = r²) by (unfold Rsqr in *; nra).
  assert (Hp : 0 < (r * cos a)² + (r * sin a)²) by (rewrite E; unfold Rsqr; nra).
  destruct (atan2_spec _ _ Hp) as [Ec Es]. rewrite E, sqrt_Rsqr in Ec, Es by lra.
  apply angle_unique; auto; [apply atan2_bound| |].
  - rewrite Ec. field. lra.
  - rewrite Es. field. lra.
Qed.
