(** * Kuka.ik in floating point: the pose reached. *)
From Coq Require Import Reals Lra Lia Psatz List Bool Arith ZArith.
From Verif Require Import PyBase Mat Util UtilProofs Geometry GeometryProofs Robot RobotProofs RobotForms Ik IkProofs KukaProofs PumaProofs Motion FloatFk FloatFkProofs FloatIk FloatIkProofs FloatIkArm FloatIkWrist.
Import ListNotations.
Local Open Scope R_scope.

(** ** Vectors *)
Lemma mnear_len e X Y v : mnear e X Y -> len (vsub (mapply Y v) (mapply X v)) <= 3.5 * e * len v.
Proof.
  intros ((a & b & c) & (d & f & k) & (l & m & n)). pose proof (Rabs_pos (m00 Y - m00 X)) as E0.
  assert (S : Rabs (vx v) + Rabs (vy v) + Rabs (vz v) <= 1.75 * len v).
  { pose proof (sum_abs_le (V3 1 1 1) v) as H. cbn [vx vy vz] in H. rewrite !Rmult_1_l in H.
    assert (L : len (V3 1 1 1) <= 1.75) by (unfold len, norm2, vdot; cbn [vx vy vz]; rewrite <- (sqrt_pow2 1.75) by lra; apply sqrt_le_1_alt; lra).
    pose proof (len_nonneg v). assert (len (V3 1 1 1) * len v <= 1.75 * len v) by (apply Rmult_le_compat_r; lra). lra. }
  assert (row : forall x y z x' y' z', Rabs (x' - x) <= e -> Rabs (y' - y) <= e -> Rabs (z' - z) <= e ->
    Rabs (x' * vx v + y' * vy v + z' * vz v - (x * vx v + y * vy v + z * vz v)) <= e * (1.75 * len v)).
  { intros x y z x' y' z' Hx Hy Hz. replace (x' * vx v + y' * vy v + z' * vz v - (x * vx v + y * vy v + z * vz v)) with ((x' - x) * vx v + (y' - y) * vy v + (z' - z) * vz v) by ring.
    apply Rle_trans with (e * (Rabs (vx v) + Rabs (vy v) + Rabs (vz v))); [|apply Rmult_le_compat_l; lra].
    rewrite !Rmult_plus_distr_l. eapply Rle_trans; [apply Rabs_triang|]. apply Rplus_le_compat; [eapply Rle_trans; [apply Rabs_triang|]; apply Rplus_le_compat|]; apply abs_mul_le; auto; lra. }
  replace (3.5 * e * len v) with (2 * (e * (1.75 * len v))) by lra. apply len3; unfold vsub, mapply; cbn [vx vy vz]; apply row; auto.
Qed.

Section Kuka.
Context (A : arith_ik) (u eta g h : R) (OK : ik_ok A u eta g h).
Context (Hu : 0 < u <= 1e-13) (He : 0 <= eta <= u ^ 2) (Hg : 0 <= g <= 8 * u) (Hh : 0 <= h <= u).
Local Notation rn := (rnd (ar A)).

(** ** Products *)
Lemma term_e a b a' b' p q X Y : Rabs (a' - a) <= p * u -> Rabs (b' - b) <= q * u -> Rabs a <= X -> Rabs b <= Y -> 0 <= p <= 1e12 -> 0 <= q <= 1e12 ->
  Rabs (a' * b' - a * b) <= (X * q + Y * p + p) * u /\ Rabs (a' * b') <= (X + 1) * (Y + 1).
Proof.
  intros Ha Hb BX BY Hp Hq. assert (pu : p * u <= 1) by nra. assert (qu : q * u <= 1) by nra. assert (pu0 : 0 <= p * u) by nra. assert (qu0 : 0 <= q * u) by nra.
  pose proof (Rabs_pos a). pose proof (Rabs_pos b). pose proof (abs_le_add _ _ _ _ Ha BX) as BX'. pose proof (abs_le_add _ _ _ _ Hb BY) as BY'.
  split; [|apply abs_mul_le; lra].
  replace (a' * b' - a * b) with (a' * (b' - b) + b * (a' - a)) by ring. eapply Rle_trans; [apply Rabs_triang|].
  assert (Rabs (a' * (b' - b)) <= (X + p * u) * (q * u)) by (apply abs_mul_le; lra). assert (Rabs (b * (a' - a)) <= Y * (p * u)) by (apply abs_mul_le; lra).
  assert (p * u * (q * u) <= p * u * 1) by (apply Rmult_le_compat_l; lra). lra.
Qed.
Lemma dot3_e a b c x y z a' b' c' x' y' z' p q X Y : Rabs (a' - a) <= p * u -> Rabs (b' - b) <= p * u -> Rabs (c' - c) <= p * u -> Rabs (x' - x) <= q * u -> Rabs (y' - y) <= q * u -> Rabs (z' - z) <= q * u ->
  Rabs a <= X -> Rabs b <= X -> Rabs c <= X -> Rabs x <= Y -> Rabs y <= Y -> Rabs z <= Y -> 0 <= p <= 1e12 -> 0 <= q <= 1e12 ->
  Rabs (fdot3 A a' b' c' x' y' z' - (a * x + b * y + c * z)) <= (3 * (X * q + Y * p + p) + 24 * ((X + 1) * (Y + 1)) + 1) * u.
Proof.
  intros. destruct (term_e a x a' x' p q X Y) as [t1 s1]; auto. destruct (term_e b y b' y' p q X Y) as [t2 s2]; auto. destruct (term_e c z c' z' p q X Y) as [t3 s3]; auto.
  pose proof (io_dot _ _ _ _ _ OK a' b' c' x' y' z') as D. set (K := (X + 1) * (Y + 1)) in *.
  assert (G : g * (Rabs (a' * x') + Rabs (b' * y') + Rabs (c' * z')) <= 8 * u * (3 * K)) by (apply Rmult_le_compat; try lra; pose proof (Rabs_pos (a' * x')); pose proof (Rabs_pos (b' * y')); pose proof (Rabs_pos (c' * z')); lra).
  apply Rle_trans with (g * (Rabs (a' * x') + Rabs (b' * y') + Rabs (c' * z')) + h + 3 * ((X * q + Y * p + p) * u)); [|lra].
  eapply abs3; [exact D|]. replace (a' * x' + b' * y' + c' * z' - (a * x + b * y + c * z)) with ((a' * x' - a * x) + (b' * y' - b * y) + (c' * z' - c * z)) by ring.
  eapply Rle_trans; [apply Rabs_triang|]. pose proof (Rabs_triang (a' * x' - a * x) (b' * y' - b * y)). lra.
Qed.
Lemma dot4_e a b c d x y z w a' b' c' d' x' y' z' p q r X Y P : Rabs (a' - a) <= p * u -> Rabs (b' - b) <= p * u -> Rabs (c' - c) <= p * u -> Rabs (x' - x) <= q * u -> Rabs (y' - y) <= q * u -> Rabs (z' - z) <= q * u ->
  Rabs a <= X -> Rabs b <= X -> Rabs c <= X -> Rabs x <= Y -> Rabs y <= Y -> Rabs z <= Y -> 0 <= p <= 1e12 -> 0 <= q <= 1e12 ->
  Rabs (d' - d) <= r * u -> Rabs d <= P -> 0 <= r <= 1e12 -> 0 <= w <= 1 ->
  Rabs (fdot (ar A) a' b' c' d' x' y' z' w - (a * x + b * y + c * z + d * w)) <= (3 * (X * q + Y * p + p) + 24 * ((X + 1) * (Y + 1)) + w * (r + 8 * (P + 1)) + 1) * u.
Proof.
  intros. destruct (term_e a x a' x' p q X Y) as [t1 s1]; auto. destruct (term_e b y b' y' p q X Y) as [t2 s2]; auto. destruct (term_e c z c' z' p q X Y) as [t3 s3]; auto.
  assert (ru : r * u <= 1) by nra. assert (D1 : Rabs d' <= P + 1) by (eapply Rle_trans; [eapply abs_le_add; eauto|lra]).
  pose proof (ok_dot _ _ _ _ _ (io_ar _ _ _ _ _ OK) a' b' c' d' x' y' z' w) as D. set (K := (X + 1) * (Y + 1)) in *.
  assert (W : Rabs (d' * w) <= (P + 1) * w) by (apply abs_mul_le; [auto|rewrite abs_ge; lra]).
  assert (W2 : Rabs (d' * w - d * w) <= r * u * w) by (replace (d' * w - d * w) with ((d' - d) * w) by ring; apply abs_mul_le; [auto|rewrite abs_ge; lra]).
  assert (G : g * (Rabs (a' * x') + Rabs (b' * y') + Rabs (c' * z') + Rabs (d' * w)) <= 8 * u * (3 * K + (P + 1) * w)) by (apply Rmult_le_compat; try lra; pose proof (Rabs_pos (a' * x')); pose proof (Rabs_pos (b' * y')); pose proof (Rabs_pos (c' * z')); pose proof (Rabs_pos (d' * w)); lra).
  apply Rle_trans with (g * (Rabs (a' * x') + Rabs (b' * y') + Rabs (c' * z') + Rabs (d' * w)) + h + (3 * ((X * q + Y * p + p) * u) + r * u * w)); [|lra].
  eapply abs3; [exact D|]. replace (a' * x' + b' * y' + c' * z' + d' * w - (a * x + b * y + c * z + d * w)) with ((a' * x' - a * x) + (b' * y' - b * y) + (c' * z' - c * z) + (d' * w - d * w)) by ring.
  eapply Rle_trans; [apply Rabs_triang|]. pose proof (Rabs_triang (a' * x' - a * x) (b' * y' - b * y)). pose proof (Rabs_triang (a' * x' - a * x + (b' * y' - b * y)) (c' * z' - c * z)). lra.
Qed.
(** entries of the rotation within p u, coordinates within q u *)
Definition vnear (e : R) (v w : vec3) : Prop := Rabs (vx w - vx v) <= e /\ Rabs (vy w - vy v) <= e /\ Rabs (vz w - vz v) <= e.
Definition vle (b : R) (v : vec3) : Prop := Rabs (vx v) <= b /\ Rabs (vy v) <= b /\ Rabs (vz v) <= b.
Lemma vle_len v b : len v <= b -> vle b v. Proof. intros H. destruct (len_comp v) as (? & ? & ?). split; [|split]; eapply Rle_trans; eauto. Qed.
Definition tnear (p q : R) (T T' : mat4) : Prop := mnear (p * u) (rot T) (rot T') /\ vnear (q * u) (pos T) (pos T') /\ brow T' = v0 /\ bww T' = 1.
Lemma fmul_e X Y X' Y' p q p2 q2 PX PY : rigid X -> rigid Y -> tnear p q X X' -> tnear p2 q2 Y Y' -> vle PX (pos X) -> vle PY (pos Y) -> 0 <= p <= 1e12 -> 0 <= q <= 1e12 -> 0 <= p2 <= 1e12 -> 0 <= q2 <= 1e12 ->
  tnear (3 * (2 * p + p2) + 97) (3 * (q2 + PY * p + p) + 48 * (PY + 1) + q + 8 * (PX + 1) + 1) (tmul X Y) (fmul (ar A) X' Y').
Proof.
  intros RX RY (NX & VX & BX & WX) (NY & VY & BY & WY) LX LY Hp Hq Hp2 Hq2. pose proof (rotation_mle _ (rigid_rot _ RX)) as MX. pose proof (rotation_mle _ (rigid_rot _ RY)) as MY.
  destruct RX as [RX0 RX1 RX2], RY as [RY0 RY1 RY2]. rewrite tmul_blocks by auto.
  destruct NX as ((x00 & x01 & x02) & (x10 & x11 & x12) & (x20 & x21 & x22)), NY as ((y00 & y01 & y02) & (y10 & y11 & y12) & (y20 & y21 & y22)), VX as (v0x & v1x & v2x), VY as (v0y & v1y & v2y),
    MX as ((a00 & a01 & a02) & (a10 & a11 & a12) & (a20 & a21 & a22)), MY as ((b00 & b01 & b02) & (b10 & b11 & b12) & (b20 & b21 & b22)), LX as (l0 & l1 & l2), LY as (k0 & k1 & k2).
  unfold fmul. rewrite BX, WX, BY, WY. cbn [vx vy vz v0]. unfold tnear, mnear, vnear. cbn [rot pos brow bww m00 m01 m02 m10 m11 m12 m20 m21 m22 vx vy vz mmul vadd mapply col0 col1 col2].
  assert (Z3 : forall e, Rabs e <= (3 * (1 * p2 + 1 * p + p) + 24 * ((1 + 1) * (1 + 1)) + 0 * (q + 8 * (PX + 1)) + 1) * u -> Rabs e <= (3 * (2 * p + p2) + 97) * u) by (intros e E; eapply Rle_trans; [exact E|right; ring]).
  assert (Z4 : forall e, Rabs e <= (3 * (1 * q2 + PY * p + p) + 24 * ((1 + 1) * (PY + 1)) + 1 * (q + 8 * (PX + 1)) + 1) * u -> Rabs e <= (3 * (q2 + PY * p + p) + 48 * (PY + 1) + q + 8 * (PX + 1) + 1) * u) by (intros e E; eapply Rle_trans; [exact E|right; ring]).
  assert (R4 : forall a b c x y z d a' b' c' d' x' y' z', Rabs (a' - a) <= p * u -> Rabs (b' - b) <= p * u -> Rabs (c' - c) <= p * u -> Rabs (x' - x) <= p2 * u -> Rabs (y' - y) <= p2 * u -> Rabs (z' - z) <= p2 * u ->
    Rabs a <= 1 -> Rabs b <= 1 -> Rabs c <= 1 -> Rabs x <= 1 -> Rabs y <= 1 -> Rabs z <= 1 -> Rabs (d' - d) <= q * u -> Rabs d <= PX ->
    Rabs (fdot (ar A) a' b' c' d' x' y' z' 0 - (a * x + b * y + c * z)) <= (3 * (2 * p + p2) + 97) * u).
  { intros. apply Z3. replace (a * x + b * y + c * z) with (a * x + b * y + c * z + d * 0) by ring. apply dot4_e; auto; lra. }
  assert (P4 : forall a b c x y z d a' b' c' d' x' y' z', Rabs (a' - a) <= p * u -> Rabs (b' - b) <= p * u -> Rabs (c' - c) <= p * u -> Rabs (x' - x) <= q2 * u -> Rabs (y' - y) <= q2 * u -> Rabs (z' - z) <= q2 * u ->
    Rabs a <= 1 -> Rabs b <= 1 -> Rabs c <= 1 -> Rabs x <= PY -> Rabs y <= PY -> Rabs z <= PY -> Rabs (d' - d) <= q * u -> Rabs d <= PX ->
    Rabs (fdot (ar A) a' b' c' d' x' y' z' 1 - (a * x + b * y + c * z + d)) <= (3 * (q2 + PY * p + p) + 48 * (PY + 1) + q + 8 * (PX + 1) + 1) * u).
  { intros. apply Z4. replace (a * x + b * y + c * z + d) with (a * x + b * y + c * z + d * 1) by ring. apply dot4_e; auto; lra. }
  split; [|split; [|split]].
  - split; [|split]; (split; [|split]); eapply R4; eauto.
  - split; [|split]; apply P4; auto.
  - rewrite !(ok_zero _ _ _ _ _ (io_ar _ _ _ _ _ OK)). reflexivity.
  - apply (ok_one _ _ _ _ _ (io_ar _ _ _ _ _ OK)).
Qed.
Lemma finv_e T T' p q P : rigid T -> tnear p q T T' -> vle P (pos T) -> 0 <= p <= 1e12 -> 0 <= q <= 1e12 ->
  tnear p (3 * (q + P * p + p) + 48 * (P + 1) + 1) (tf_inverse T) (ftf_inverse A T').
Proof.
  intros RT (NT & (v0x & v1x & v2x) & _ & _) (l0 & l1 & l2) Hp Hq. pose proof (rotation_mle _ (rigid_rot _ RT)) as ((a00 & a01 & a02) & (a10 & a11 & a12) & (a20 & a21 & a22)).
  destruct NT as ((x00 & x01 & x02) & (x10 & x11 & x12) & (x20 & x21 & x22)).
  unfold tnear, mnear, vnear, tf_inverse, ftf_inverse, mapply, mopp, mtr. cbn [rot pos brow bww m00 m01 m02 m10 m11 m12 m20 m21 m22 vx vy vz].
  assert (O : forall x x' e, Rabs (x' - x) <= e -> Rabs (- x' - - x) <= e) by (intros x x' e E; replace (- x' - - x) with (- (x' - x)) by ring; rewrite Rabs_Ropp; auto).
  assert (O' : forall x, Rabs x <= 1 -> Rabs (- x) <= 1) by (intros; rewrite Rabs_Ropp; auto).
  assert (Z : forall e, Rabs e <= (3 * (1 * q + P * p + p) + 24 * ((1 + 1) * (P + 1)) + 1) * u -> Rabs e <= (3 * (q + P * p + p) + 48 * (P + 1) + 1) * u) by (intros e E; eapply Rle_trans; [exact E|right; ring]).
  split; [auto|]. split; [|auto]. split; [|split]; apply Z; apply dot3_e; auto.
Qed.

(** ** The target without base, tool and last link *)
Lemma frame_tnear T T' P : rigid T -> frame_near u eta T T' -> vle P (pos T) -> tnear 2 (P + 1) T T'.
Proof.
  intros RT ((f00 & f01 & f02) & (f10 & f11 & f12) & (f20 & f21 & f22) & (f0 & f1 & f2) & fb & fw) (l0 & l1 & l2). pose proof (rotation_mle _ (rigid_rot _ RT)) as ((a00 & a01 & a02) & (a10 & a11 & a12) & (a20 & a21 & a22)).
  destruct RT as [_ B W]. unfold tnear, mnear, vnear. rewrite fb, fw.
  assert (K : forall x x', Rabs x <= P -> rd u eta x x' -> Rabs (x' - x) <= (P + 1) * u).
  { intros x x' Hx Hd. unfold rd in Hd. pose proof (eta_u u eta Hu He). assert (u * Rabs x <= u * P) by (apply Rmult_le_compat_l; lra). lra. }
  assert (K1 : forall x x', Rabs x <= 1 -> rd u eta x x' -> Rabs (x' - x) <= 2 * u) by (intros; eapply rd_e; eauto).
  split; [|split; [|auto]]; repeat split; auto.
Qed.
Lemma tnear_le p q p' q' T T' : p <= p' -> q <= q' -> tnear p q T T' -> tnear p' q' T T'.
Proof.
  intros Hp Hq (a & b & c). assert (p * u <= p' * u) by (apply Rmult_le_compat_r; lra). assert (q * u <= q' * u) by (apply Rmult_le_compat_r; lra).
  split; [eapply mnear_le; eauto|]. split; [|auto]. unfold vnear in *. intuition lra.
Qed.
Definition small_tool (r : robot) : Prop := match r_tool r with Some (_, tip) => rigid tip /\ len (pos tip) <= 1 / 2 | None => True end.
Lemma small_rigid r : small_tool r -> rigid_tool r.
Proof. unfold small_tool, rigid_tool. destruct (r_tool r) as [[? ?]|]; [intros [H _]; exact H|intros; exact I]. Qed.
Lemma finverse_len T : rigid T -> len (pos (tf_inverse T)) = len (pos T).
Proof.
  intros [H _ _]. unfold tf_inverse. cbn [pos]. replace (mapply (mopp (mtr (rot T))) (pos T)) with (mapply (mtr (rot T)) (vscale (-1) (pos T))) by (generalize (rot T) (pos T); intros; vring).
  rewrite len_rot by (apply rotation_tr; auto). unfold len. f_equal. unfold norm2, vdot, vscale. cbn [vx vy vz]. ring.
Qed.
Lemma len_pos_tmul X Y : rigid X -> rigid Y -> len (pos (tmul X Y)) <= len (pos X) + len (pos Y).
Proof. intros RX RY. pose proof (len_tapply_le X (pos Y) RX) as H. replace (pos (tmul X Y)) with (tapply X (pos Y)); auto. destruct RX, RY. rewrite tmul_blocks by auto. reflexivity. Qed.
Context (kp kq : R) (Hkp : 2 <= kp <= 2300) (Hkq : 3 <= kq <= 5000).
(** errors of the rotation and of the wrist centre, in multiples of u, for a target with entries within kp u and coordinates within kq u *)
Definition kt : R := 18 * kp + 760.
Definition kf : R := 3 * kq + 74 * kp + 4000.
Lemma pos_inv_tmul X Y : rigid X -> rigid Y -> len (pos (tmul (tf_inverse X) Y)) = len (vsub (pos Y) (pos X)).
Proof.
  intros RX [_ BY WY]. rewrite tmul_blocks by auto. unfold tf_inverse. cbn [rot pos].
  replace (vadd (mapply (mtr (rot X)) (pos Y)) (mapply (mopp (mtr (rot X))) (pos X))) with (mapply (mtr (rot X)) (vsub (pos Y) (pos X))) by (generalize (rot X) (pos Y) (pos X); intros; vring).
  apply len_rot, rotation_tr, RX.
Qed.
Lemma target_e r r' T T' : like r (Kuka 0.18 0.6 0.62 0.115) -> rigid (r_tfb r) -> len (pos (r_tfb r)) <= 2 -> small_tool r -> robot_near u eta r r' -> rigid T -> len (vsub (pos T) (pos (r_tfb r))) <= 3 -> tnear kp kq T T' ->
  let X := unmount r T in exists Tw, fkuka_target A r' T' = Ok Tw /\ mnear (kt * u) (rot X) (rot Tw) /\ vnear (kf * u) (centre 0.115 X) (pos Tw) /\ len (pos X) <= 3.5.
Proof.
  intros LK RB LB ST [NL NB NT] RT LT FT X. unfold kt, kf.
  assert (RX : rigid X) by (apply unmount_rigid; auto using small_rigid).
  assert (IB : tnear 2 172 (tf_inverse (r_tfb r)) (ftf_inverse A (r_tfb r'))).
  { pose proof (vle_len _ _ LB) as VB. pose proof (frame_tnear _ _ _ RB NB VB) as N. pose proof (finv_e _ _ _ _ _ RB N VB ltac:(lra) ltac:(lra)) as K. revert K. apply tnear_le; lra. }
  assert (RI : rigid (tf_inverse (r_tfb r))) by (apply tf_inverse_rigid; auto). assert (LI : len (pos (tf_inverse (r_tfb r))) <= 2) by (rewrite finverse_len; auto).
  assert (LT5 : len (pos T) <= 5) by (pose proof (len_sub_le _ _ _ LT); lra).
  assert (W1 : tnear (3 * kp + 109) (3 * kq + 521) (tmul (tf_inverse (r_tfb r)) T) (fmul (ar A) (ftf_inverse A (r_tfb r')) T')).
  { pose proof (vle_len _ _ LT5) as VT. pose proof (fmul_e _ _ _ _ _ _ _ _ _ _ RI RT IB FT (vle_len _ _ LI) VT ltac:(lra) ltac:(lra) ltac:(lra) ltac:(lra)) as K. revert K. apply tnear_le; lra. }
  assert (R1 : rigid (tmul (tf_inverse (r_tfb r)) T)) by (apply rigid_tmul; auto). assert (L1 : len (pos (tmul (tf_inverse (r_tfb r)) T)) <= 3) by (rewrite (pos_inv_tmul _ _ RB RT); exact LT).
  set (Tw := match r_tool r' with Some (_, tf_tt) => fmul (ar A) (fmul (ar A) (ftf_inverse A (r_tfb r')) T') (ftf_inverse A tf_tt) | None => fmul (ar A) (ftf_inverse A (r_tfb r')) T' end).
  assert (W2 : tnear (18 * kp + 760) (3 * kq + 13.5 * kp + 1380) X Tw /\ len (pos X) <= 3.5).
  { unfold X, unmount, Tw, small_tool in *. destruct (r_tool r) as [[cc tip]|], (r_tool r') as [[cc' tip']|]; try contradiction.
    - destruct ST as [RP LP]. pose proof (vle_len _ _ LP) as VP. pose proof (frame_tnear _ _ _ RP NT VP) as N. pose proof (finv_e _ _ _ _ _ RP N VP ltac:(lra) ltac:(lra)) as IP.
      assert (RQ : rigid (tf_inverse tip)) by (apply tf_inverse_rigid; auto). assert (LQ : len (pos (tf_inverse tip)) <= 1 / 2) by (rewrite finverse_len; auto).
      pose proof (fmul_e _ _ _ _ _ _ _ _ _ _ R1 RQ W1 IP (vle_len _ _ L1) (vle_len _ _ LQ) ltac:(lra) ltac:(lra) ltac:(lra) ltac:(lra)) as K. split; [revert K; apply tnear_le; lra|]. pose proof (len_pos_tmul _ _ R1 RQ). lra.
    - split; [revert W1; apply tnear_le; lra|lra]. }
  destruct W2 as ((NR & (d0 & d1 & d2) & _) & LX).
  assert (I5 : exists l, nth_error (r_links r') 5 = Some l /\ Rabs (dd (l_dh l) - 0.115) <= 2 * u).
  { destruct LK as [_ LK]. assert (E : nth_error (map dhjt (r_links r)) 5 = nth_error (map dhjt (r_links (Kuka 0.18 0.6 0.62 0.115))) 5) by (rewrite LK; auto).
    rewrite nth_error_map in E. destruct (nth_error (r_links r) 5) as [l|] eqn:E5; [|discriminate E]. cbn in E. injection E as E _.
    assert (G : forall n, nth_error (r_links r) n = Some l -> exists l', nth_error (r_links r') n = Some l' /\ link_near u eta l l').
    { revert NL. clear. generalize (r_links r) (r_links r'). intros l1 l2 H. induction H as [|x y xs ys Hxy H IH]; intros [|n] En; cbn in *; try discriminate; [injection En as ->; eauto|auto]. }
    destruct (G 5%nat E5) as (l' & E5' & _ & _ & _ & Hdd & _). exists l'. split; auto. rewrite E in Hdd. cbn [dd] in Hdd. eapply rd_e; eauto. apply abs_const. lra. }
  destruct I5 as (l & E5 & D6). unfold fkuka_target. fold Tw. unfold py_index. rewrite E5. cbn [bind]. eexists. split; [reflexivity|]. split; [exact NR|]. split; [|exact LX].
  pose proof (rotation_mle _ (rigid_rot _ RX)) as ((a00 & a01 & a02) & (a10 & a11 & a12) & (a20 & a21 & a22)). destruct NR as ((x00 & x01 & x02) & (x10 & x11 & x12) & (x20 & x21 & x22)). destruct (vle_len _ _ LX) as (b0 & b1 & b2).
  assert (C : forall a b c p a' b' c' p', Rabs (a' - a) <= (18 * kp + 760) * u -> Rabs (b' - b) <= (18 * kp + 760) * u -> Rabs (c' - c) <= (18 * kp + 760) * u -> Rabs a <= 1 -> Rabs b <= 1 -> Rabs c <= 1 -> Rabs (p' - p) <= (3 * kq + 13.5 * kp + 1380) * u -> Rabs p <= 3.5 ->
    Rabs (rn (p' - fdot3 A a' b' c' 0 0 (dd (l_dh l))) - (p - 0.115 * c)) <= (3 * kq + 74 * kp + 4000) * u).
  { intros a b c p a' b' c' p' Ha Hb Hc Ba Bb Bc Hp Bp.
    assert (Z0 : Rabs (0 - 0) <= 2 * u) by (rewrite Rminus_0_r, Rabs_R0; lra). assert (Z1 : Rabs 0 <= 0.115) by (rewrite Rabs_R0; lra).
    pose proof (dot3_e a b c 0 0 0.115 a' b' c' 0 0 (dd (l_dh l)) (18 * kp + 760) 2 1 0.115 Ha Hb Hc Z0 Z0 D6 Ba Bb Bc Z1 Z1 ltac:(apply abs_const; lra) ltac:(lra) ltac:(lra)) as K.
    assert (K' : Rabs (fdot3 A a' b' c' 0 0 (dd (l_dh l)) - 0.115 * c) <= (60.3 * kp + 2607) * u) by (replace (0.115 * c) with (a * 0 + b * 0 + c * 0.115) by ring; eapply Rle_trans; [exact K|apply Rmult_le_compat_r; lra]).
    apply (sub_e A u eta g h OK Hu He _ _ _ _ (3 * kq + 13.5 * kp + 1380) (60.3 * kp + 2607) 3.5 0.115); auto; try lra. eapply Rle_trans; [apply (abs_mul_le _ _ 0.115 1); [apply abs_const; lra|auto]|lra]. }
  unfold vnear, centre, vsub, vscale, col2. cbn [vx vy vz pos]. repeat split; eapply C; eauto.
Qed.

(** ** The arm between calls *)
Lemma ffk_loop_keep : forall ls q T, Forall clean_link ls -> Forall clean_link (fst (ffk_loop (ar A) ls q T)) /\ map reset_link (fst (ffk_loop (ar A) ls q T)) = map reset_link ls.
Proof.
  induction ls as [|l ls IH]; intros q T C; cbn [ffk_loop]; [auto|]. destruct q as [|qi q]; [auto|]. inversion C as [|? ? Cl Cs]; subst.
  assert (K : forall T1, clean_T T1 -> clean_link (set_T l T1) /\ reset_link (set_T l T1) = reset_link l) by (intros; split; auto).
  assert (W : forall a al d t, clean_T (fwrite_T (ar A) (l_T l) a al d t)) by (intros; destruct Cl as (c1 & c2 & c3); unfold clean_T, fwrite_T; cbn; auto).
  unfold flink_transform. destruct (l_jt l).
  - destruct (IH q (fmul (ar A) T (fwrite_T (ar A) (l_T l) (da (l_dh l)) (dalpha (l_dh l)) (dd (l_dh l)) qi)) Cs) as [I1 I2]. destruct (ffk_loop _ _ _ _) as [ls1 R1]. cbn [fst map] in *.
    destruct (K _ (W (da (l_dh l)) (dalpha (l_dh l)) (dd (l_dh l)) qi)). split; [constructor; auto|congruence].
  - destruct (IH q (fmul (ar A) T (fwrite_T (ar A) (l_T l) (da (l_dh l)) (dalpha (l_dh l)) qi (dtheta (l_dh l)))) Cs) as [I1 I2]. destruct (ffk_loop _ _ _ _) as [ls1 R1]. cbn [fst map] in *.
    destruct (K _ (W (da (l_dh l)) (dalpha (l_dh l)) qi (dtheta (l_dh l)))). split; [constructor; auto|congruence].
  - cbn [fst]. split; [constructor; auto|reflexivity].
Qed.
Lemma near_again ls ls' ls1 : Forall2 (link_near u eta) ls ls' -> Forall clean_link ls1 -> map reset_link ls1 = map reset_link ls' -> Forall2 (link_near u eta) ls ls1.
Proof.
  intros H. revert ls1. induction H as [|l l' ls ls' Hl H IH]; intros [|l1 ls1] C E; try discriminate; constructor; inversion C; subst; cbn [map] in E.
  - injection E. intros _ E2 E3 E4. unfold link_near in *. destruct l1, l'. cbn in *. subst. clear - Hl H2. tauto.
  - apply IH; auto. injection E. auto.
Qed.
Lemma ffk_near arm arm' q : robot_near u eta arm arm' -> robot_near u eta arm (fst (ffk (ar A) arm' q)).
Proof.
  intros [NL NB NT]. unfold ffk. assert (C : Forall clean_link (r_links arm')) by (clear - NL; induction NL; constructor; auto; apply H).
  destruct (ffk_loop_keep (r_links arm') q (r_tfb arm') C) as [K1 K2]. destruct (ffk_loop (ar A) (r_links arm') q (r_tfb arm')) as [ls1 R1]. cbn [fst] in *. split; cbn [set_links r_links r_tfb r_tool]; auto. eapply near_again; eauto.
Qed.
Definition arm_is (arm : robot) : Prop := like arm (Arm2 0.18 0.6 0.62) /\ r_tfb arm = eye4 /\ r_tool arm = None.
Lemma arm_rot_e arm arm' q1 q2 q3 : arm_is arm -> robot_near u eta arm arm' -> exists F, snd (ffk (ar A) arm' [q1; q2; q3]) = Ok F /\ mnear (650 * u) (arm2_rot q1 (q2 + q3)) (rot F).
Proof.
  intros (LA & BA & TA) NA. pose proof (eta_k u eta Hu He) as EK.
  assert (LL : map dhjt (r_links arm) = map dhjt (r_links (Arm2 0.18 0.6 0.62))) by apply LA.
  assert (JO : joints_ok arm) by (apply (like_joints_ok arm (Arm2 0.18 0.6 0.62)); auto; repeat constructor; discriminate).
  assert (ND : ndof arm = 3%nat) by (unfold ndof; rewrite <- (map_length dhjt), LL; reflexivity).
  assert (JN : joints_near u eta (r_links arm) [q1; q2; q3] [q1; q2; q3]).
  { revert LL. generalize (r_links arm). intros ls E. destruct ls as [|l1 [|l2 [|l3 [|]]]]; try discriminate E. cbn in E. injection E. intros J3 _ J2 _ J1 _.
    assert (Z : forall x, Rabs (x - x) <= 4 * u) by (intros; rewrite Rminus_eq_0, Rabs_R0; lra). repeat constructor; unfold joint_near; [rewrite J1|rewrite J2|rewrite J3]; apply Z. }
  assert (SP : span (r_links arm) [q1; q2; q3] <= 1.5).
  { rewrite (like_span _ _ _ LL). cbn [span Arm2 robot_init r_links lr new_link l_jt l_dh da dd]. rewrite ?Rabs_R0, (abs_ge 0.18), (abs_ge 0.6), (abs_ge 0.62) by lra. lra. }
  pose proof (span_nonneg (r_links arm) [q1; q2; q3]) as SP0.
  assert (RBd : rot_bound u eta g h 3 <= 650 * u) by (unfold rot_bound, kap; cbn [INR]; lra).
  assert (RB0 : 0 <= rot_bound u eta g h 3) by (unfold rot_bound, kap; cbn [INR]; lra).
  assert (SA : sane 0 (r_tfb arm)) by (rewrite BA; apply eye_sane; lra).
  assert (PB : pos_bound u eta g h 3 (span (r_links arm) [q1; q2; q3]) 0 <= 1).
  { unfold pos_bound. cbn [INR]. set (S := span _ _) in *. set (E := rot_bound u eta g h 3) in *.
    assert (g * (2 + 32 * u) <= 1e-9) by nra. assert (EB : E + 32 * u + g * (2 + 32 * u) <= 1e-3) by lra. assert (g * (2 + 32 * u) >= 0) by nra.
    assert ((E + 32 * u + g * (2 + 32 * u)) * S <= 1e-3 * 1.5) by (apply Rmult_le_compat; lra). assert (g * (12 * eta + (0 + 3 / 2 * S + 1)) <= 1e-9 * 10) by (apply Rmult_le_compat; lra). lra. }
  assert (TO : tool_ok arm) by (unfold tool_ok; rewrite TA; exact I).
  destruct (ffk_close (ar A) u eta g h (io_ar _ _ _ _ _ OK) ltac:(lra) ltac:(lra) ltac:(lra) ltac:(lra) ltac:(lra) arm arm' _ _ 0 (proj1 LA) JO SA TO NA JN) as [(T & F & F1 & F2 & F3) _]; [rewrite ND; lra|rewrite ND; exact PB|].
  rewrite TA, ND in F3. exists F. split; [exact F2|].
  pose proof (fk_like arm (Arm2 0.18 0.6 0.62) [q1; q2; q3] LA (Arm2_good _ _ _) eq_refl eq_refl) as FK. rewrite arm2_fk in FK. cbn [bind] in FK. unfold tooled in FK. rewrite BA, TA, tmul_1_l in FK. rewrite F1 in FK. injection FK as ->.
  cbn [arm2_form rot] in F3. destruct F3 as ((c00 & c01 & c02 & c10 & c11 & c12 & c20 & c21 & c22) & _). unfold mnear.
  assert (K : forall x, Rabs x <= rot_bound u eta g h 3 -> Rabs x <= 650 * u) by (intros; lra).
  split; [|split]; (split; [|split]); apply K; assumption.
Qed.


(** ** The rows of the loop *)
Definition krow (Tw : mat4) (q : list R) : Prop := exists q1 q2 q3 t1 t2 t3 W, q = [q1; q2; rn (q3 + fpi A / 2); t1; t2; t3] /\ arm_row u (pos Tw) [q1; q2; q3] /\
  mnear (650 * u) (arm2_rot q1 (q2 + rn (q3 + fpi A / 2))) W /\ In [t1; t2; t3] (fwrist_angles A (fmul3 A (mtr W) (rot Tw))).
Lemma loop_e Tw arm : arm_is arm -> forall qs arm' w, robot_near u eta arm arm' -> Forall (arm_row u (pos Tw)) qs ->
  exists arm2 w2 sols, fkuka_loop A Tw arm' w qs = (arm2, w2, Ok sols) /\ robot_near u eta arm arm2 /\ length sols = (2 * length qs)%nat /\ Forall (krow Tw) sols.
Proof.
  intros IA qs. induction qs as [|q qs IH]; intros arm' w NA HQ; cbn [fkuka_loop]; [exists arm', w, []; auto|].
  inversion HQ as [|? ? Hq Hqs]; subst. pose proof Hq as (q1 & q2 & q3 & th & ps & ph & E & _). subst q. cbn [nth_error upd].
  set (q3k := rn (q3 + fpi A / 2)) in *. destruct (arm_rot_e arm arm' q1 q2 q3k IA NA) as (F & EF & NF). pose proof (ffk_near arm arm' [q1; q2; q3k] NA) as NA1.
  destruct (ffk (ar A) arm' [q1; q2; q3k]) as [arm1 F1]. cbn [fst snd] in *. subst F1. unfold fwrist_ik. cbn [w_rob set_tfb r_tfb rot read w_qsol].
  destruct (IH arm1 (Wr (set_tfb (w_rob w) (M4 (rot F) v0 (brow Tw) 1)) (fwrist_angles A (fmul3 A (mtr (rot F)) (rot Tw)))) NA1 Hqs) as (arm2 & w2 & sols & EL & N2 & L2 & F2).
  cbn [w_rob set_tfb r_tfb] in EL. rewrite EL. cbn [bind]. do 3 eexists. split; [reflexivity|]. split; [exact N2|]. split.
  - rewrite app_length, map_length, L2. cbn [length fwrist_angles]. lia.
  - apply Forall_app. split; [|exact F2]. apply Forall_forall. intros q Hin. apply in_map_iff in Hin. destruct Hin as (qw & <- & Hin).
    pose proof Hin as Hin2. unfold fwrist_angles in Hin2. destruct Hin2 as [<-|[<-|[]]]; exists q1, q2, q3; do 3 eexists; exists (rot F); (split; [reflexivity|]); auto.
Qed.
Lemma fmul3_e X Y X' Y' p q : rotation X -> rotation Y -> mnear (p * u) X X' -> mnear (q * u) Y Y' -> 0 <= p <= 1e12 -> 0 <= q <= 1e12 -> mnear ((3 * (2 * p + q) + 97) * u) (mmul X Y) (fmul3 A X' Y').
Proof.
  intros RX RY ((x00 & x01 & x02) & (x10 & x11 & x12) & (x20 & x21 & x22)) ((y00 & y01 & y02) & (y10 & y11 & y12) & (y20 & y21 & y22)) Hp Hq.
  pose proof (rotation_mle _ RX) as ((a00 & a01 & a02) & (a10 & a11 & a12) & (a20 & a21 & a22)). pose proof (rotation_mle _ RY) as ((b00 & b01 & b02) & (b10 & b11 & b12) & (b20 & b21 & b22)).
  assert (Z : forall e, Rabs e <= (3 * (1 * q + 1 * p + p) + 24 * ((1 + 1) * (1 + 1)) + 1) * u -> Rabs e <= (3 * (2 * p + q) + 97) * u) by (intros e E; eapply Rle_trans; [exact E|right; ring]).
  unfold mnear, fmul3, mmul. cbn [m00 m01 m02 m10 m11 m12 m20 m21 m22 vx vy vz col0 col1 col2].
  split; [|split]; (split; [|split]); apply Z; apply dot3_e; auto.
Qed.
Lemma mtr_near e X Y : mnear e X Y -> mnear e (mtr X) (mtr Y).
Proof. unfold mnear, mtr. cbn [m00 m01 m02 m10 m11 m12 m20 m21 m22]. tauto. Qed.

(** ** The wrist centre *)
Lemma kuka_centre_e q1 q2 q3 th ps ph : Rabs (q1 - th) <= 4 * u -> Rabs (q2 - ps) <= 4 * u -> Rabs (q3 - ph) <= 12 * u ->
  len (vsub (kuka_centre 0.18 0.6 0.62 q1 q2 q3) (kuka_centre 0.18 0.6 0.62 th ps ph)) <= 36 * u.
Proof.
  intros H1 H2 H3. assert (H23 : Rabs (q2 + q3 - (ps + ph)) <= 16 * u) by (replace (q2 + q3 - (ps + ph)) with ((q2 - ps) + (q3 - ph)) by ring; eapply Rle_trans; [apply Rabs_triang|lra]).
  unfold kuka_centre. set (r := 0.18 + 0.6 * cos q2 + 0.62 * sin (q2 + q3)). set (r0 := 0.18 + 0.6 * cos ps + 0.62 * sin (ps + ph)).
  pose proof (Rle_trans _ _ _ (cos_lip q2 ps) H2) as C2. pose proof (Rle_trans _ _ _ (sin_lip q2 ps) H2) as S2. pose proof (Rle_trans _ _ _ (cos_lip _ _) H23) as C3. pose proof (Rle_trans _ _ _ (sin_lip _ _) H23) as S3.
  pose proof (Rle_trans _ _ _ (cos_lip q1 th) H1) as C1. pose proof (Rle_trans _ _ _ (sin_lip q1 th) H1) as S1.
  assert (DR : Rabs (r - r0) <= 12.4 * u) by (unfold r, r0; apply Rabs_le; apply Rabs_le_inv in C2; apply Rabs_le_inv in S3; lra).
  assert (BR : Rabs r <= 1.4) by (unfold r; destruct (abs_1 q2) as [a _], (abs_1 (q2 + q3)) as [_ b]; apply Rabs_le; apply Rabs_le_inv in a; apply Rabs_le_inv in b; lra).
  assert (K : forall c c0, Rabs (c - c0) <= 4 * u -> Rabs c0 <= 1 -> Rabs (c * r - c0 * r0) <= 18 * u).
  { intros c c0 Hc B. replace (c * r - c0 * r0) with ((c - c0) * r + c0 * (r - r0)) by ring. eapply Rle_trans; [apply Rabs_triang|].
    pose proof (abs_mul_le _ _ _ _ Hc BR). pose proof (abs_mul_le _ _ _ _ B DR). lra. }
  replace (36 * u) with (2 * (18 * u)) by lra. apply len3; unfold vsub; cbn [vx vy vz].
  - apply K; [exact C1|apply abs_1].
  - apply K; [exact S1|apply abs_1].
  - apply Rabs_le. apply Rabs_le_inv in S2. apply Rabs_le_inv in C3. lra.
Qed.
Lemma vnear_len e v w : vnear e v w -> len (vsub w v) <= 2 * e.
Proof. intros (a & b & c). apply len3; auto. Qed.
(** distance of the wrist centre reached: larger when the elbow is set to stretched or folded *)
Definition centre_err (q3 : R) : R := if Rle_dec 1e-3 (Rabs (cos q3)) then 8e6 * u else 4.1e-5.
Lemma centre_e X Tw q1 q2 q3 : vnear (kf * u) (centre 0.115 X) (pos Tw) -> arm_row u (pos Tw) [q1; q2; q3] -> let q3k := rn (q3 + fpi A / 2) in
  len (vsub (kuka_centre 0.18 0.6 0.62 q1 q2 q3k) (centre 0.115 X)) <= centre_err q3k.
Proof.
  intros NV (p1 & p2 & p3 & th & ps & ph & E & H1 & H2 & H3 & B3 & HC) q3k. injection E as <- <- <-.
  assert (Q : Rabs (q3k - (ph + PI / 2)) <= 12 * u).
  { pose proof (io_pi _ _ _ _ _ OK) as Hpi. pose proof PI_4. pose proof PI2_1. 
    assert (B : Rabs (q3 + fpi A / 2) <= 5.3). { apply Rabs_le_inv in Hpi. apply Rabs_le. apply Rabs_le_inv in B3. lra. }
    pose proof (ok_rnd _ _ _ _ _ (io_ar _ _ _ _ _ OK) (q3 + fpi A / 2)) as Z. fold q3k in Z. pose proof (eta_k u eta Hu He). assert (u * Rabs (q3 + fpi A / 2) <= u * 5.3) by (apply Rmult_le_compat_l; lra).
    apply Rabs_le. assert (Z2 : Rabs (q3k - (q3 + fpi A / 2)) <= 5.4 * u) by lra. apply Rabs_le_inv in Z2. apply Rabs_le_inv in H3. apply Rabs_le_inv in Hpi. lra. }
  pose proof (kuka_centre_e q1 q2 q3k th ps (ph + PI / 2) H1 H2 Q) as KC. rewrite (kuka_centre_arm 0.18 0.6 0.62) in KC.
  pose proof (vnear_len _ _ _ NV) as VN. pose proof (len_vsub3 (kuka_centre 0.18 0.6 0.62 q1 q2 q3k) (arm_pos 0.18 0.6 0.62 th ps ph) (pos Tw)) as T1. pose proof (len_vsub3 (kuka_centre 0.18 0.6 0.62 q1 q2 q3k) (pos Tw) (centre 0.115 X)) as T2.
  assert (CS : Rabs (cos q3k - - sin ph) <= 12 * u). { replace (- sin ph) with (cos (ph + PI / 2)) by (rewrite cos_plus, cos_PI2, sin_PI2; ring). eapply Rle_trans; [apply cos_lip|exact Q]. }
  assert (KF : 0 <= kf * u <= 1.9e5 * u) by (unfold kf; split; [apply Rmult_le_pos; lra|apply Rmult_le_compat_r; lra]).
  unfold centre_err. destruct HC as [[_ L]|[Z L]]; destruct (Rle_dec 1e-3 (Rabs (cos q3k))) as [G|G]; try lra.
  pose proof (abs_tri _ _ _ CS) as AT. rewrite Rabs_Ropp in AT. lra.
Qed.

(** ** The frame reached, without base and tool *)
Lemma rot_diff M v w : rotation M -> len (vsub (mapply M v) (mapply M w)) = len (vsub v w).
Proof. intros H. replace (vsub (mapply M v) (mapply M w)) with (mapply M (vsub v w)) by vring. apply len_rot. auto. Qed.
Lemma tapply_centre d6 X w : tapply X w = vadd (centre d6 X) (mapply (rot X) (vadd w (V3 0 0 d6))).
Proof. unfold tapply, centre. generalize (rot X) (pos X). intros M p. vring. Qed.
(** change of direction of the frame reached when the sine of q5 is at least s *)
Definition rho (s : R) : R := 7100 * (kp + 120) * (u / s).
Lemma pose_e X Tw q : rigid X -> mnear (kt * u) (rot X) (rot Tw) -> vnear (kf * u) (centre 0.115 X) (pos Tw) -> krow Tw q ->
  exists q1 q2 q3 q4 q5 q6, q = [q1; q2; q3; q4; q5; q6] /\ let F := kuka_form 0.18 0.6 0.62 0.115 q1 q2 q3 q4 q5 q6 in
    len (vsub (centre 0.115 F) (centre 0.115 X)) <= centre_err q3 /\ Rabs (cos q5 - vdot (col2 (arm2_rot q1 (q2 + q3))) (col2 (rot X))) <= 400 * (kp + 120) * u /\
    forall s, 54000 * (kp + 120) * u <= s <= Rabs (sin q5) -> forall x, len (vsub (mapply (rot F) x) (mapply (rot X) x)) <= rho s * len x.
Proof.
  intros RX NR NV (q1 & q2 & q3 & t1 & t2 & t3 & W & -> & AR & NW & HIn). set (q3k := rn (q3 + fpi A / 2)) in *. exists q1, q2, q3k, t1, t2, t3. split; [reflexivity|].
  destruct (kuka_form_centre 0.18 0.6 0.62 0.115 q1 q2 q3k t1 t2 t3) as (CF & RF & RigF). set (F := kuka_form _ _ _ _ _ _ _ _ _ _) in *. cbv zeta.
  split; [rewrite CF; apply (centre_e X Tw q1 q2 q3 NV AR)|].
  set (R0 := arm2_rot q1 (q2 + q3k)) in *. assert (RR : rotation R0) by apply arm2_rot_rotation. pose proof (rigid_rot _ RX) as RM.
  set (M := mmul (mtr R0) (rot X)). assert (HM : rotation M) by (apply rotation_mmul; auto using rotation_tr).
  assert (KU : 0 <= kp * u <= 2300 * u) by (split; [apply Rmult_le_pos; lra|apply Rmult_le_compat_r; lra]).
  assert (NM : mnear ((54 * kp + 6280) * u) M (fmul3 A (mtr W) (rot Tw))).
  { pose proof (fmul3_e (mtr R0) (rot X) (mtr W) (rot Tw) 650 kt (rotation_tr _ RR) RM (mtr_near _ _ _ NW) NR ltac:(lra) ltac:(unfold kt; lra)) as K. revert K. apply mnear_le. unfold kt. lra. }
  destruct (fwrist_near A u eta g h OK Hu He M _ ((54 * kp + 6280) * u) _ HM NM ltac:(lra) HIn) as (p1 & p2 & p3 & E & HC & HZ). injection E as <- <- <-.
  split; [replace (vdot (col2 R0) (col2 (rot X))) with (m22 M) by (unfold M, mmul, mtr, vdot; cbn [m22 m20 m21 m02 m12 col2 vx vy vz]; ring); lra|]. intros s Hs x.
  assert (NZ := HZ s ltac:(lra)).
  replace (rot X) with (mmul R0 M) by (unfold M; rewrite <- mmul_assoc, (rotation_inv_r R0), mmul_1_l by auto; auto). rewrite RF. fold R0. rewrite !mapply_mmul, rot_diff by auto.
  eapply Rle_trans; [apply (mnear_len _ _ _ _ NZ)|]. assert (s0 : 0 < s) by lra. apply Rmult_le_compat_r; [apply len_nonneg|].
  assert (US : 0 < u / s) by (apply Rdiv_lt_0_compat; lra). replace (3.5 * (37 * ((54 * kp + 6280) * u / s))) with ((6993 * kp + 813260) * (u / s)) by (unfold Rdiv; lra).
  unfold rho. apply Rmult_le_compat_r; lra.
Qed.

(** ** A pose that some joint angles reach is not refused *)
Lemma lxy_e p p' e : vnear e p p' -> Rabs (lxy p' - lxy p) <= 2 * e.
Proof. intros (a & b & _). apply hyp_lip; auto. Qed.
Lemma elbow_e r z r' z' : Rabs r <= 2 -> Rabs z <= 2 -> Rabs (r' - r) <= 2 * (kf * u) -> Rabs (z' - z) <= kf * u -> Rabs (elbow_cos 0.6 0.62 r' z' - elbow_cos 0.6 0.62 r z) <= 4e-7.
Proof.
  intros Br Bz Hr Hz. unfold elbow_cos. assert (KF : 0 <= kf * u <= 1.9e5 * u) by (unfold kf; split; [apply Rmult_le_pos; lra|apply Rmult_le_compat_r; lra]).
  assert (K : forall x x' d, Rabs x <= 2 -> Rabs (x' - x) <= d -> d <= 1e-7 -> Rabs (x' ^ 2 - x ^ 2) <= 4.1 * d).
  { intros x x' d Bx Hx Hd. replace (x' ^ 2 - x ^ 2) with ((x' - x) * (x' - x + 2 * x)) by ring. rewrite (Rmult_comm 4.1). apply abs_mul_le; auto.
    apply Rabs_le. apply Rabs_le_inv in Bx. apply Rabs_le_inv in Hx. lra. }
  pose proof (K r r' _ Br Hr ltac:(lra)) as K1. pose proof (K z z' _ Bz Hz ltac:(lra)) as K2. apply Rabs_le_inv in K1. apply Rabs_le_inv in K2. apply Rabs_le. lra.
Qed.
Lemma reach_e X Tw q1 q2 q3 : vnear (kf * u) (centre 0.115 X) (pos Tw) -> centre 0.115 X = kuka_centre 0.18 0.6 0.62 q1 q2 q3 -> let L := lxy (pos Tw) in
  ~ (1 + 8e-7 < Rabs (elbow_cos 0.6 0.62 (L - 0.18) (vz (pos Tw))) /\ 1 + 8e-7 < Rabs (elbow_cos 0.6 0.62 (- L - 0.18) (vz (pos Tw)))).
Proof.
  intros NV E L [F1 F2]. set (p := centre 0.115 X) in *. replace q3 with ((q3 - PI / 2) + PI / 2) in E by ring. rewrite (kuka_centre_arm 0.18 0.6 0.62) in E. set (q := q3 - PI / 2) in *.
  assert (NZ : 0.6 * 0.62 <> 0) by lra. destruct (arm_pos_lxy 0.18 0.6 0.62 NZ q1 q2 q) as [HL HC]. cbv zeta in *. rewrite <- E in *. set (l := 0.18 + reach_r 0.6 0.62 q2 q) in *.
  assert (Bl : Rabs l <= 1.4) by (unfold l, reach_r; destruct (abs_1 q2) as [a _], (abs_1 (q2 + q)) as [b _]; apply Rabs_le; apply Rabs_le_inv in a; apply Rabs_le_inv in b; lra).
  assert (Bz : Rabs (vz p) <= 2) by (rewrite E; unfold arm_pos, reach_z; cbn [vz]; destruct (abs_1 q2) as [_ a], (abs_1 (q2 + q)) as [_ b]; apply Rabs_le; apply Rabs_le_inv in a; apply Rabs_le_inv in b; lra).
  pose proof (lxy_e _ _ _ NV) as LE. fold L in LE. assert (VZ : Rabs (vz (pos Tw) - vz p) <= kf * u) by apply NV. destruct (abs_1 q) as [C1 _]. rewrite <- HC in C1.
  assert (BR : Rabs (l - 0.18) <= 2) by (apply Rabs_le; apply Rabs_le_inv in Bl; lra).
  destruct HL as [HL|HL].
  - assert (D : Rabs (L - 0.18 - (l - 0.18)) <= 2 * (kf * u)) by (rewrite HL; replace (L - 0.18 - (lxy p - 0.18)) with (L - lxy p) by ring; lra).
    pose proof (elbow_e _ _ _ _ BR Bz D VZ) as EE. pose proof (abs_tri _ _ _ EE). lra.
  - assert (D : Rabs (- L - 0.18 - (l - 0.18)) <= 2 * (kf * u)) by (rewrite HL; replace (- L - 0.18 - (- lxy p - 0.18)) with (- (L - lxy p)) by ring; rewrite Rabs_Ropp; lra).
    pose proof (elbow_e _ _ _ _ BR Bz D VZ) as EE. pose proof (abs_tri _ _ _ EE). lra.
Qed.

(** ** Kuka.ik *)
(** the real robot [k] and the floats [k'] of the same object; the wrist holds no data that ik reads *)
Definition kuka_near (k k' : kuka) : Prop := robot_near u eta (k_rob k) (k_rob k') /\ robot_near u eta (k_arm k) (k_arm k').
Record kuka_std (k : kuka) : Prop := { ks_ok : kuka_ok 0.18 0.6 0.62 0.115 k; ks_base : rigid (r_tfb (k_rob k)); ks_len : len (pos (r_tfb (k_rob k))) <= 2; ks_tool : small_tool (k_rob k) }.
Lemma link_a_e arm arm' : arm_is arm -> robot_near u eta arm arm' -> exists a1 a2 a3, link_a arm' 0 = Ok a1 /\ link_a arm' 1 = Ok a2 /\ link_a arm' 2 = Ok a3 /\
  Rabs (a1 - 0.18) <= 2 * u /\ Rabs (a2 - 0.6) <= 2 * u /\ Rabs (a3 - 0.62) <= 2 * u.
Proof.
  intros ((_ & LA) & _) [NL _ _]. revert LA NL. generalize (r_links arm). intros ls E N. destruct ls as [|l1 [|l2 [|l3 [|]]]]; try discriminate E. cbn in E. injection E. intros _ D3 _ D2 _ D1. 
  inversion N as [|? k1 ? ks1 N1 N']; subst. inversion N' as [|? k2 ? ks2 N2 N'']; subst. inversion N'' as [|? k3 ? ks3 N3 N3']; subst.
  unfold link_a, py_index. replace (r_links arm') with (k1 :: k2 :: k3 :: ks3) by auto. cbn [nth_error bind]. do 3 eexists. do 3 (split; [reflexivity|]).
  destruct N1 as (_ & _ & X1 & _), N2 as (_ & _ & X2 & _), N3 as (_ & _ & X3 & _). rewrite D1 in X1. rewrite D2 in X2. rewrite D3 in X3. cbn [da] in *.
  split; [|split]; eapply rd_e; eauto; apply abs_const; lra.
Qed.
Lemma tapply_mount r X v : rigid (r_tfb r) -> rigid_tool r -> rigid X -> tapply (mount r X) v = tapply (r_tfb r) (tapply X (match r_tool r with Some (_, tip) => tapply tip v | None => v end)).
Proof.
  intros B C HX. unfold mount, tooled, rigid_tool in *. destruct (r_tool r) as [[c tip]|].
  - rewrite !tapply_tmul by (auto using rigid_tmul). reflexivity.
  - rewrite tapply_tmul by auto. reflexivity.
Qed.
Lemma rot_mount r X v : rigid (r_tfb r) -> rigid_tool r -> rigid X -> mapply (rot (mount r X)) v = mapply (rot (r_tfb r)) (mapply (rot X) (match r_tool r with Some (_, tip) => mapply (rot tip) v | None => v end)).
Proof.
  intros B C HX. destruct B as [_ B1 B2], HX as [_ X1 X2]. unfold mount, tooled, rigid_tool in *. destruct (r_tool r) as [[c tip]|].
  - destruct C as [_ C1 C2]. rewrite (tmul_blocks (r_tfb r) X) by auto. rewrite tmul_blocks by auto. cbn [rot]. rewrite !mapply_mmul. reflexivity.
  - rewrite tmul_blocks by auto. cbn [rot]. rewrite mapply_mmul. reflexivity.
Qed.
Lemma pos_tapply X : pos X = tapply X v0.
Proof. unfold tapply. generalize (rot X) (pos X). intros. vring. Qed.
Lemma fkuka_e k k' T T' : kuka_std k -> kuka_near k k' -> rigid T -> len (vsub (pos T) (pos (r_tfb (k_rob k)))) <= 3 -> tnear kp kq T T' -> let X := unmount (k_rob k) T in
  kuka_near k (fst (fkuka_ik A k' T')) /\
  ((snd (fkuka_ik A k' T') = Ok IkFail /\ forall q1 q2 q3 q4 q5 q6, snd (fk (k_rob k) [q1; q2; q3; q4; q5; q6]) <> Ok T) \/
   exists sols, snd (fkuka_ik A k' T') = Ok (IkOk (Own sols)) /\ (length sols = 4 \/ length sols = 8)%nat /\
     forall q, In q sols -> exists q1 q2 q3 q4 q5 q6 F, q = [q1; q2; q3; q4; q5; q6] /\ snd (fk (k_rob k) q) = Ok F /\
       len (vsub (kuka_centre 0.18 0.6 0.62 q1 q2 q3) (centre 0.115 X)) <= centre_err q3 /\ Rabs (cos q5 - vdot (col2 (arm2_rot q1 (q2 + q3))) (col2 (rot X))) <= 400 * (kp + 120) * u /\
       forall s, 54000 * (kp + 120) * u <= s <= Rabs (sin q5) -> (forall v, len (vsub (mapply (rot F) v) (mapply (rot T) v)) <= rho s * len v) /\ len (vsub (pos F) (pos T)) <= centre_err q3 + 0.615 * rho s).
Proof.
  intros [KO KB KL KT] [NR NA] RT LT FT X. pose proof (ko_rob _ _ _ _ _ KO) as LK. assert (IA : arm_is (k_arm k)) by (destruct KO; split; auto).
  pose proof (small_rigid _ KT) as RTl. assert (RX : rigid X) by (apply unmount_rigid; auto).
  destruct (target_e (k_rob k) (k_rob k') T T' LK KB KL KT NR RT LT FT) as (Tw & ET & NRot & NPos & LX). fold X in NRot, NPos, LX.
  destruct (link_a_e _ _ IA NA) as (a1 & a2 & a3 & E1 & E2 & E3 & D1 & D2 & D3).
  assert (BC : vle 4 (pos Tw)).
  { assert (LC : len (centre 0.115 X) <= 3.7). { unfold centre. pose proof (len_vsub3 (vsub (pos X) (vscale 0.115 (col2 (rot X)))) (pos X) (V3 0 0 0)) as Z.
      replace (vsub (vsub (pos X) (vscale 0.115 (col2 (rot X)))) (V3 0 0 0)) with (vsub (pos X) (vscale 0.115 (col2 (rot X)))) in Z by (generalize (pos X) (rot X); intros; vring).
      replace (vsub (pos X) (V3 0 0 0)) with (pos X) in Z by (generalize (pos X); intros; vring).
      replace (vsub (vsub (pos X) (vscale 0.115 (col2 (rot X)))) (pos X)) with (mapply (rot X) (V3 0 0 (-0.115))) in Z by (generalize (pos X) (rot X); intros; apply vec3_eq; cbn; lra).
      rewrite len_rot in Z by apply RX. replace (len (V3 0 0 (-0.115))) with 0.115 in Z; [lra|]. unfold len, norm2, vdot. cbn [vx vy vz]. replace (0 * 0 + 0 * 0 + -0.115 * -0.115) with (0.115 ^ 2) by lra. rewrite sqrt_pow2; lra. }
    destruct (vle_len _ _ LC) as (c0 & c1 & c2), NPos as (n0 & n1 & n2). assert (Z : forall x y, Rabs y <= 3.7 -> Rabs (x - y) <= kf * u -> Rabs x <= 4) by (intros x y Hy Hx; pose proof (abs_tri _ _ _ Hx); assert (kf * u <= 1.9e5 * u) by (unfold kf; apply Rmult_le_compat_r; lra); lra).
    split; [|split]; [exact (Z _ _ c0 n0)|exact (Z _ _ c1 n1)|exact (Z _ _ c2 n2)]. }
  destruct BC as (B0 & B1 & B2). unfold fkuka_ik. rewrite ET.
  destruct (farm2_e A u eta g h OK Hu He a1 a2 a3 D1 D2 D3 (k_arm k') Tw E1 E2 E3 B0 B1 B2) as [[EA FA]|(qs & EA & LQ & FQ)]; rewrite EA.
  - cbn [fst snd]. split; [split; auto|]. left. split; [reflexivity|]. intros q1 q2 q3 q4 q5 q6 EF. rewrite (kuka_fk_mount 0.18 0.6 0.62 0.115) in EF by auto. injection EF as EF.
    assert (EX : X = kuka_form 0.18 0.6 0.62 0.115 q1 q2 q3 q4 q5 q6) by (unfold X; rewrite <- EF; apply unmount_mount; auto).
    destruct (kuka_form_centre 0.18 0.6 0.62 0.115 q1 q2 q3 q4 q5 q6) as (CF & _). cbv zeta in CF. rewrite <- EX in CF. exact (reach_e X Tw q1 q2 q3 NPos CF FA).
  - destruct (loop_e Tw (k_arm k) IA qs (k_arm k') (k_wrist k') NA FQ) as (arm2 & w2 & sols & EL & N2 & L2 & FS). rewrite EL. cbn [fst snd bind]. split; [split; auto|]. right.
    exists sols. split; [destruct sols as [|x sols]; [cbn in L2; lia|reflexivity]|]. split; [lia|]. intros q Hq. rewrite Forall_forall in FS.
    destruct (pose_e X Tw q RX NRot NPos (FS q Hq)) as (q1 & q2 & q3 & q4 & q5 & q6 & -> & HP). exists q1, q2, q3, q4, q5, q6. eexists. split; [reflexivity|].
    split; [apply (kuka_fk_mount 0.18 0.6 0.62 0.115); auto|]. destruct HP as (HC & H5 & HP). split; [rewrite <- (proj1 (kuka_form_centre 0.18 0.6 0.62 0.115 q1 q2 q3 q4 q5 q6)); exact HC|]. split; [exact H5|]. intros s Hs. specialize (HP s Hs).
    destruct (kuka_form_centre 0.18 0.6 0.62 0.115 q1 q2 q3 q4 q5 q6) as (_ & _ & RF). cbv zeta in RF. set (F := kuka_form _ _ _ _ _ _ _ _ _ _) in *.
    rewrite <- (mount_unmount (k_rob k) T) by auto. fold X. assert (RB : rotation (rot (r_tfb (k_rob k)))) by apply KB.
    assert (s0 : 0 < s) by (assert (0 <= kp * u) by (apply Rmult_le_pos; lra); lra). assert (US : 0 < u / s) by (apply Rdiv_lt_0_compat; lra). assert (RH : 0 <= rho s) by (unfold rho; apply Rmult_le_pos; lra).
    split.
    + intros v. rewrite !rot_mount, rot_diff by auto. eapply Rle_trans; [apply HP|]. apply Rmult_le_compat_l; auto. unfold small_tool in KT. destruct (r_tool (k_rob k)) as [[cc tip]|]; [|lra]. destruct KT as [[Rt _ _] _]. rewrite len_rot by auto. lra.
    + rewrite !pos_tapply, !tapply_mount, len_tapply by auto. set (w := match r_tool (k_rob k) with Some _ => _ | None => _ end).
      assert (LW : len w <= 1 / 2). { unfold w, small_tool in *. destruct (r_tool (k_rob k)) as [[cc tip]|]; [rewrite <- pos_tapply; apply KT|]. unfold len, norm2, vdot, v0. cbn [vx vy vz]. replace (0 * 0 + 0 * 0 + 0 * 0) with 0 by ring. rewrite sqrt_0. lra. }
      rewrite (tapply_centre 0.115 F), (tapply_centre 0.115 X). set (x := vadd w (V3 0 0 0.115)).
      replace (vsub (vadd (centre 0.115 F) (mapply (rot F) x)) (vadd (centre 0.115 X) (mapply (rot X) x))) with (vadd (vsub (centre 0.115 F) (centre 0.115 X)) (vsub (mapply (rot F) x) (mapply (rot X) x)))
        by (generalize (mapply (rot F) x) (mapply (rot X) x) (centre 0.115 F) (centre 0.115 X); intros; vring).
      eapply Rle_trans; [apply len_add|]. apply Rplus_le_compat; [exact HC|]. eapply Rle_trans; [apply HP|]. rewrite (Rmult_comm 0.615). apply Rmult_le_compat_l; auto.
      unfold x. pose proof (len_add w (V3 0 0 0.115)) as Z. replace (len (V3 0 0 0.115)) with 0.115 in Z; [lra|]. unfold len, norm2, vdot. cbn [vx vy vz]. replace (0 * 0 + 0 * 0 + 0.115 * 0.115) with (0.115 ^ 2) by lra. rewrite sqrt_pow2; lra.
Qed.
End Kuka.
