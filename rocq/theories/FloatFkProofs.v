(** * Error of the floating-point forward kinematics. *)
From Coq Require Import Reals Lra Lia Psatz List Bool Arith ZArith.
From Flocq Require Import Core Relative.
From Verif Require Import PyBase Mat Util UtilProofs Geometry GeometryProofs Robot RobotProofs Ik IkProofs Motion FloatFk.
Import ListNotations.
Local Open Scope R_scope.

(** ** Specification *)
(** u: relative error of one operation, eta: its absolute error near zero; sin and cos are
    within u; g, h: the same for a sum of four products. A row (0,0,0,1) gives the exact result. *)
Record arith_ok (A : arith) (u eta g h : R) : Prop := {
  ok_rnd : forall x, Rabs (rnd A x - x) <= u * Rabs x + eta;
  ok_sin : forall x, Rabs (fsin A x - sin x) <= u;
  ok_cos : forall x, Rabs (fcos A x - cos x) <= u;
  ok_dot : forall a0 a1 a2 a3 b0 b1 b2 b3, Rabs (fdot A a0 a1 a2 a3 b0 b1 b2 b3 - (a0 * b0 + a1 * b1 + a2 * b2 + a3 * b3)) <=
    g * (Rabs (a0 * b0) + Rabs (a1 * b1) + Rabs (a2 * b2) + Rabs (a3 * b3)) + h;
  ok_zero : forall b0 b1 b2, fdot A 0 0 0 1 b0 b1 b2 0 = 0;
  ok_one : forall b0 b1 b2, fdot A 0 0 0 1 b0 b1 b2 1 = 1 }.
(** every entry of the rotation part within e, every coordinate within f, bottom rows equal *)
Definition close (e f : R) (T T' : mat4) : Prop :=
  (Rabs (m00 (rot T') - m00 (rot T)) <= e /\ Rabs (m01 (rot T') - m01 (rot T)) <= e /\ Rabs (m02 (rot T') - m02 (rot T)) <= e /\
   Rabs (m10 (rot T') - m10 (rot T)) <= e /\ Rabs (m11 (rot T') - m11 (rot T)) <= e /\ Rabs (m12 (rot T') - m12 (rot T)) <= e /\
   Rabs (m20 (rot T') - m20 (rot T)) <= e /\ Rabs (m21 (rot T') - m21 (rot T)) <= e /\ Rabs (m22 (rot T') - m22 (rot T)) <= e) /\
  (Rabs (vx (pos T') - vx (pos T)) <= f /\ Rabs (vy (pos T') - vy (pos T)) <= f /\ Rabs (vz (pos T') - vz (pos T)) <= f) /\
  brow T' = brow T /\ bww T' = bww T.
(** x' is x rounded *)
Definition rd (u eta x x' : R) : Prop := Rabs (x' - x) <= u * Rabs x + eta.
(** a link whose table entries are those of l rounded; an angle up to 4 is rounded by at most 4u *)
Definition link_near (u eta : R) (l l' : link) : Prop :=
  clean_link l' /\ l_jt l' = l_jt l /\ rd u eta (da (l_dh l)) (da (l_dh l')) /\ rd u eta (dd (l_dh l)) (dd (l_dh l')) /\
  Rabs (dalpha (l_dh l') - dalpha (l_dh l)) <= 4 * u /\ Rabs (dtheta (l_dh l') - dtheta (l_dh l)) <= 4 * u.
Definition joint_near (u eta : R) (l : link) (q q' : R) : Prop :=
  match l_jt l with JP => rd u eta q q' | _ => Rabs (q' - q) <= 4 * u end.
Inductive joints_near (u eta : R) : list link -> list R -> list R -> Prop :=
  | jn_nil : joints_near u eta [] [] []
  | jn_cons l ls q q' qs qs' : joint_near u eta l q q' -> joints_near u eta ls qs qs' -> joints_near u eta (l :: ls) (q :: qs) (q' :: qs').
Definition frame_near (u eta : R) (T T' : mat4) : Prop :=
  (rd u eta (m00 (rot T)) (m00 (rot T')) /\ rd u eta (m01 (rot T)) (m01 (rot T')) /\ rd u eta (m02 (rot T)) (m02 (rot T'))) /\
  (rd u eta (m10 (rot T)) (m10 (rot T')) /\ rd u eta (m11 (rot T)) (m11 (rot T')) /\ rd u eta (m12 (rot T)) (m12 (rot T'))) /\
  (rd u eta (m20 (rot T)) (m20 (rot T')) /\ rd u eta (m21 (rot T)) (m21 (rot T')) /\ rd u eta (m22 (rot T)) (m22 (rot T'))) /\
  (rd u eta (vx (pos T)) (vx (pos T')) /\ rd u eta (vy (pos T)) (vy (pos T')) /\ rd u eta (vz (pos T)) (vz (pos T'))) /\
  brow T' = brow T /\ bww T' = bww T.
(** the robot r with every number of its table, base and tool rounded *)
Record robot_near (u eta : R) (r r' : robot) : Prop := {
  rn_links : Forall2 (link_near u eta) (r_links r) (r_links r');
  rn_base : frame_near u eta (r_tfb r) (r_tfb r');
  rn_tool : match r_tool r, r_tool r' with Some (_, tf), Some (_, tf') => frame_near u eta tf tf' | None, None => True | _, _ => False end }.
(** offset of a link *)
Definition off (l : link) (q : R) : R := Rabs (da (l_dh l)) + Rabs (match l_jt l with JP => q | _ => dd (l_dh l) end).
(** error of the rotation rows one link adds *)
Definition kap (u eta g h : R) : R := 12 * (12 * u + eta) + 7 * g + 3 * h.
(** error of the position after one link: e, f are the errors before it, P bounds the position *)
Definition fnext (u eta g h : R) (l : link) (q e f P : R) : R :=
  let dt := 8 * u * off l q + 3 * eta in f + e * off l q + 4 * dt + g * (2 * off l q + 4 * dt + P + f) + h.
Definition row0 (A : mat3) := V3 (m00 A) (m01 A) (m02 A).
Definition row1 (A : mat3) := V3 (m10 A) (m11 A) (m12 A).
Definition row2 (A : mat3) := V3 (m20 A) (m21 A) (m22 A).
(** a frame whose rows are at most 3/2 long and whose coordinates are at most P: every pose that is
    a rotation up to a large rounding error *)
Definition sane (P : R) (T : mat4) : Prop :=
  (len (row0 (rot T)) <= 3 / 2 /\ len (row1 (rot T)) <= 3 / 2 /\ len (row2 (rot T)) <= 3 / 2) /\
  (Rabs (vx (pos T)) <= P /\ Rabs (vy (pos T)) <= P /\ Rabs (vz (pos T)) <= P) /\ brow T = v0 /\ bww T = 1.

(** the two error bounds, for n joints, links whose offsets add up to S and a base within P of the origin *)
Definition rot_bound (u eta g h : R) (n : nat) : R := 3 * u + 2 * eta + INR n * kap u eta g h.
Definition pos_bound (u eta g h : R) (n : nat) (S P : R) : R :=
  (u * P + eta) + (rot_bound u eta g h n + 32 * u + g * (2 + 32 * u)) * S + INR n * (12 * eta + g * (12 * eta + (P + 3 / 2 * S + 1)) + h).

(** ** Vectors *)
Lemma len_abs_le v : len v <= Rabs (vx v) + Rabs (vy v) + Rabs (vz v).
Proof.
  destruct v as [x y z]. cbn. pose proof (Rabs_pos x). pose proof (Rabs_pos y). pose proof (Rabs_pos z).
  apply sqr_le; [lra|]. rewrite len_sqr. unfold norm2, vdot. cbn.
  assert (E : forall t, t * t = Rabs t * Rabs t) by (intros t; rewrite <- Rabs_mult; symmetry; apply Rabs_right; pose proof (Rle_0_sqr t); unfold Rsqr in *; lra).
  rewrite (E x), (E y), (E z). pose proof (Rmult_le_pos _ _ H H0). pose proof (Rmult_le_pos _ _ H H1). pose proof (Rmult_le_pos _ _ H0 H1). nra.
Qed.
Definition vabs (v : vec3) := V3 (Rabs (vx v)) (Rabs (vy v)) (Rabs (vz v)).
Lemma len_vabs v : len (vabs v) = len v.
Proof.
  unfold len, norm2, vdot, vabs. cbn. f_equal.
  assert (E : forall t, Rabs t * Rabs t = t * t) by (intros t; rewrite <- Rabs_mult; apply Rabs_right; pose proof (Rle_0_sqr t); unfold Rsqr in *; lra).
  rewrite !E. reflexivity.
Qed.
Lemma sum_abs_le u v : Rabs (vx u * vx v) + Rabs (vy u * vy v) + Rabs (vz u * vz v) <= len u * len v.
Proof. rewrite <- (len_vabs u), <- (len_vabs v). rewrite !Rabs_mult. exact (vdot_len (vabs u) (vabs v)). Qed.
Lemma abs_vdot u v : Rabs (vdot u v) <= len u * len v.
Proof.
  pose proof (sum_abs_le u v). unfold vdot. pose proof (Rabs_triang (vx u * vx v + vy u * vy v) (vz u * vz v)). pose proof (Rabs_triang (vx u * vx v) (vy u * vy v)). lra.
Qed.
Lemma len_comp v : Rabs (vx v) <= len v /\ Rabs (vy v) <= len v /\ Rabs (vz v) <= len v.
Proof.
  destruct v as [x y z]. cbn.
  assert (G : forall a, a * a <= norm2 (V3 x y z) -> Rabs a <= len (V3 x y z)).
  { intros a Ha. unfold len. rewrite <- sqrt_Rsqr_abs. apply sqrt_le_1_alt. exact Ha. }
  unfold norm2, vdot in G. cbn in G. pose proof (Rle_0_sqr x). pose proof (Rle_0_sqr y). pose proof (Rle_0_sqr z). unfold Rsqr in *. repeat split; apply G; lra.
Qed.
Lemma len3 (v : vec3) (b : R) : Rabs (vx v) <= b -> Rabs (vy v) <= b -> Rabs (vz v) <= b -> len v <= 2 * b.
Proof.
  intros H1 H2 H3. pose proof (Rabs_pos (vx v)). apply sqr_le; [lra|]. rewrite len_sqr. destruct v as [x y z]. unfold norm2, vdot. cbn in *.
  assert (E : forall t, Rabs t <= b -> t * t <= b * b).
  { intros t Ht. apply Rsqr_le_abs_1. unfold Rsqr. rewrite (Rabs_right b) by lra. exact Ht. }
  pose proof (E _ H1). pose proof (E _ H2). pose proof (E _ H3). nra.
Qed.

Lemma abs3 a b c x y : Rabs (a - b) <= x -> Rabs (b - c) <= y -> Rabs (a - c) <= x + y.
Proof. intros. replace (a - c) with ((a - b) + (b - c)) by ring. pose proof (Rabs_triang (a - b) (b - c)). lra. Qed.
Lemma abs_tri a b x : Rabs (a - b) <= x -> Rabs a <= Rabs b + x.
Proof. intros. replace a with (b + (a - b)) by ring. pose proof (Rabs_triang b (a - b)). lra. Qed.
Lemma vsub_add u v : u = vadd v (vsub u v). Proof. vring. Qed.
Lemma len_sub_le u v x : len (vsub u v) <= x -> len u <= len v + x.
Proof. intros H. rewrite (vsub_add u v). pose proof (len_add v (vsub u v)). lra. Qed.

Lemma sin_lip a b : Rabs (sin a - sin b) <= Rabs (a - b).
Proof.
  pose proof (chord a b). rewrite <- (sqrt_Rsqr_abs (sin a - sin b)), <- (sqrt_Rsqr_abs (a - b)). apply sqrt_le_1_alt. unfold Rsqr. pose proof (Rle_0_sqr (cos a - cos b)). unfold Rsqr in *. lra.
Qed.
Lemma cos_lip a b : Rabs (cos a - cos b) <= Rabs (a - b).
Proof.
  pose proof (chord a b). rewrite <- (sqrt_Rsqr_abs (cos a - cos b)), <- (sqrt_Rsqr_abs (a - b)). apply sqrt_le_1_alt. unfold Rsqr. pose proof (Rle_0_sqr (sin a - sin b)). unfold Rsqr in *. lra.
Qed.

Section Err.
Variables (A : arith) (u eta g h : R).
Hypothesis OK : arith_ok A u eta g h.
Hypothesis Hu : 0 <= u <= 1 / 1000.
Hypothesis He : 0 <= eta.
Hypothesis Hg : 0 <= g.
Hypothesis Hh : 0 <= h.
Let dl := 12 * u + eta.
Hypothesis Hd : dl <= 1 / 12.

(** one entry of a product, against the exact product of the same floats *)
Lemma dot_err r p c w : Rabs (fdot A (vx r) (vy r) (vz r) p (vx c) (vy c) (vz c) w - (vdot r c + p * w)) <= g * (len r * len c + Rabs (p * w)) + h.
Proof.
  pose proof (ok_dot _ _ _ _ _ OK (vx r) (vy r) (vz r) p (vx c) (vy c) (vz c) w) as H. pose proof (sum_abs_le r c) as S. unfold vdot.
  eapply Rle_trans; [exact H|]. pose proof (Rabs_pos (p * w)). nra.
Qed.

(** the entries of a link transform *)
Lemma prod_err s c s' c' : Rabs s <= 1 -> Rabs c <= 1 -> Rabs (s' - s) <= 5 * u -> Rabs (c' - c) <= 5 * u -> Rabs (rnd A (s' * c') - s * c) <= dl.
Proof.
  intros H1 H2 H3 H4. pose proof (ok_rnd _ _ _ _ _ OK (s' * c')) as H. pose proof (abs_tri _ _ _ H3). pose proof (abs_tri _ _ _ H4).
  pose proof (Rabs_pos s). pose proof (Rabs_pos c). pose proof (Rabs_pos s'). pose proof (Rabs_pos c').
  assert (M : Rabs (s' * c' - s * c) <= 5 * u * (1 + 5 * u) + 5 * u).
  { replace (s' * c' - s * c) with ((s' - s) * c' + s * (c' - c)) by ring. eapply Rle_trans; [apply Rabs_triang|]. rewrite !Rabs_mult.
    pose proof (Rabs_pos (s' - s)). pose proof (Rabs_pos (c' - c)). apply Rplus_le_compat; [apply Rmult_le_compat; lra|].
    replace (5 * u) with (1 * (5 * u)) by ring. apply Rmult_le_compat; lra. }
  assert (N : Rabs (s' * c') <= (1 + 5 * u) * (1 + 5 * u)) by (rewrite Rabs_mult; apply Rmult_le_compat; lra).
  assert (Q : u * Rabs (s' * c') <= u * ((1 + 5 * u) * (1 + 5 * u))) by (apply Rmult_le_compat_l; lra).
  assert (UU : u * u <= 1 / 1000 * u) by (apply Rmult_le_compat_r; lra). assert (UUU : u * (u * u) <= u * (1 / 1000 * u)) by (apply Rmult_le_compat_l; lra).
  eapply Rle_trans; [eapply abs3; [exact H|exact M]|]. unfold dl. lra.
Qed.
Lemma scale_err a a' c c' : Rabs c <= 1 -> Rabs (c' - c) <= 5 * u -> rd u eta a a' -> Rabs (rnd A (a' * c') - a * c) <= 8 * u * Rabs a + 3 * eta.
Proof.
  unfold rd. intros H1 H2 Ha. pose proof (ok_rnd _ _ _ _ _ OK (a' * c')) as H. pose proof (abs_tri _ _ _ H2) as Tc. pose proof (abs_tri _ _ _ Ha) as Ta. pose proof (Rabs_pos a). pose proof (Rabs_pos c'). pose proof (Rabs_pos a').
  pose proof (Rabs_pos (a' - a)). pose proof (Rabs_pos (c' - c)).
  assert (UE : 0 <= u * eta) by (apply Rmult_le_pos; lra). assert (UA : 0 <= u * Rabs a) by (apply Rmult_le_pos; lra).
  assert (UE1 : u * eta <= 1 / 1000 * eta) by (apply Rmult_le_compat_r; lra). assert (UA1 : u * (u * Rabs a) <= 1 / 1000 * (u * Rabs a)) by (apply Rmult_le_compat_r; lra).
  assert (M : Rabs (a' * c' - a * c) <= (u * Rabs a + eta) * (1 + 5 * u) + Rabs a * (5 * u)).
  { replace (a' * c' - a * c) with ((a' - a) * c' + a * (c' - c)) by ring. eapply Rle_trans; [apply Rabs_triang|]. rewrite !Rabs_mult. apply Rplus_le_compat; apply Rmult_le_compat; lra. }
  assert (N : Rabs (a' * c') <= (Rabs a + (u * Rabs a + eta)) * (1 + 5 * u)) by (rewrite Rabs_mult; apply Rmult_le_compat; lra).
  assert (N2 : (Rabs a + (u * Rabs a + eta)) * (1 + 5 * u) <= (Rabs a + (u * Rabs a + eta)) * 1.005) by (apply Rmult_le_compat_l; lra).
  assert (N3 : u * Rabs a <= 1 / 1000 * Rabs a) by (apply Rmult_le_compat_r; lra).
  assert (Q : u * Rabs (a' * c') <= u * (1.1 * Rabs a + 1.1 * eta)) by (apply Rmult_le_compat_l; lra).
  eapply Rle_trans; [eapply abs3; [exact H|exact M]|]. lra.
Qed.
Lemma trig_le x : Rabs (sin x) <= 1 /\ Rabs (cos x) <= 1.
Proof. split; apply Rabs_le; [apply SIN_bound|apply COS_bound]. Qed.
Lemma trig_err x x' : Rabs (x' - x) <= 4 * u -> Rabs (fsin A x' - sin x) <= 5 * u /\ Rabs (fcos A x' - cos x) <= 5 * u.
Proof.
  intros H. pose proof (ok_sin _ _ _ _ _ OK x') as E1. pose proof (ok_cos _ _ _ _ _ OK x') as E2. pose proof (sin_lip x' x) as L1. pose proof (cos_lip x' x) as L2.
  split; [pose proof (abs3 _ _ _ _ _ E1 (Rle_trans _ _ _ L1 H))|pose proof (abs3 _ _ _ _ _ E2 (Rle_trans _ _ _ L2 H))]; lra.
Qed.
Lemma wclose T T' a alpha d theta a' alpha' d' theta' : clean_T T -> clean_T T' -> rd u eta a a' -> rd u eta d d' -> Rabs (alpha' - alpha) <= 4 * u -> Rabs (theta' - theta) <= 4 * u ->
  let W := write_T T a alpha d theta in let W' := fwrite_T A T' a' alpha' d' theta' in
  (len (vsub (col0 (rot W')) (col0 (rot W))) <= 2 * dl /\ len (vsub (col1 (rot W')) (col1 (rot W))) <= 2 * dl /\ len (vsub (col2 (rot W')) (col2 (rot W))) <= 2 * dl) /\
  len (vsub (pos W') (pos W)) <= 2 * (8 * u * (Rabs a + Rabs d) + 3 * eta) /\ clean_T W'.
Proof.
  intros (C1 & C2 & C3) (C1' & C2' & C3') Ra Rdd Hal Hth. cbn zeta. destruct (trig_le theta) as [St Ct]. destruct (trig_le alpha) as [Sa Ca].
  destruct (trig_err _ _ Hth) as [E1 E2]. destruct (trig_err _ _ Hal) as [E3 E4].
  assert (U : 5 * u <= dl) by (unfold dl; lra). assert (D0 : 0 <= dl) by (unfold dl; lra).
  assert (O1 : Rabs (- fsin A theta' - - sin theta) <= 5 * u). { replace (- fsin A theta' - - sin theta) with (- (fsin A theta' - sin theta)) by ring. rewrite Rabs_Ropp. exact E1. }
  assert (O2 : Rabs (- fcos A theta' - - cos theta) <= 5 * u). { replace (- fcos A theta' - - cos theta) with (- (fcos A theta' - cos theta)) by ring. rewrite Rabs_Ropp. exact E2. }
  assert (O3 : Rabs (- sin theta) <= 1) by (rewrite Rabs_Ropp; auto). assert (O4 : Rabs (- cos theta) <= 1) by (rewrite Rabs_Ropp; auto).
  unfold write_T, fwrite_T, col0, col1, col2, vsub. cbn [rot pos m00 m01 m02 m10 m11 m12 m20 m21 m22 vx vy vz]. rewrite C1, C1'.
  split; [repeat split; apply len3; cbn [vx vy vz]; try (apply prod_err; auto); try lra; replace (0 - 0) with 0 by ring; rewrite Rabs_R0; exact D0|].
  split; [|unfold clean_T; cbn; auto].
  pose proof (Rabs_pos a) as A0. pose proof (Rabs_pos d) as D1. pose proof (Rmult_le_pos _ _ (proj1 Hu) A0) as UA. pose proof (Rmult_le_pos _ _ (proj1 Hu) D1) as UD.
  pose proof (scale_err a a' _ _ Ct E2 Ra). pose proof (scale_err a a' _ _ St E1 Ra). unfold rd in Rdd. apply len3; cbn [vx vy vz]; lra.
Qed.

(** ** One row of a product *)
(** r, p: a row of the exact frame; r', p' : the same row in floats *)
Definition rowok (e f P : R) (r : vec3) (p : R) (r' : vec3) (p' : R) : Prop :=
  len r <= 3 / 2 /\ len (vsub r' r) <= e /\ Rabs p <= P /\ Rabs (p' - p) <= f.
Definition dotrow (r : vec3) (p : R) (Y : mat4) : vec3 :=
  V3 (fdot A (vx r) (vy r) (vz r) p (vx (col0 (rot Y))) (vy (col0 (rot Y))) (vz (col0 (rot Y))) (vx (brow Y)))
     (fdot A (vx r) (vy r) (vz r) p (vx (col1 (rot Y))) (vy (col1 (rot Y))) (vz (col1 (rot Y))) (vy (brow Y)))
     (fdot A (vx r) (vy r) (vz r) p (vx (col2 (rot Y))) (vy (col2 (rot Y))) (vz (col2 (rot Y))) (vz (brow Y))).
Definition dotpos (r : vec3) (p : R) (Y : mat4) : R := fdot A (vx r) (vy r) (vz r) p (vx (pos Y)) (vy (pos Y)) (vz (pos Y)) (bww Y).

(** one rotation entry; the part that the previous error contributes is kept apart *)
Lemma entry_err r r' p' c c' : len r' <= 2 -> len c <= 1 -> len (vsub c' c) <= 2 * dl ->
  Rabs (fdot A (vx r') (vy r') (vz r') p' (vx c') (vy c') (vz c') 0 - vdot r c - vdot (vsub r' r) c) <= 7 / 3 * g + h + 4 * dl.
Proof.
  intros Lr Lc Ec. pose proof (dot_err r' p' c' 0) as D. rewrite Rmult_0_r, Rabs_R0, !Rplus_0_r in D.
  pose proof (len_sub_le _ _ _ Ec) as Lc'. pose proof (len_nonneg r'). pose proof (len_nonneg c').
  assert (M : len r' * len c' <= 2 * (1 + 1 / 6)) by (apply Rmult_le_compat; lra).
  assert (M' : g * (len r' * len c') <= g * (2 * (1 + 1 / 6))) by (apply Rmult_le_compat_l; lra).
  pose proof (abs_vdot r' (vsub c' c)) as V. pose proof (len_nonneg (vsub c' c)).
  assert (V' : len r' * len (vsub c' c) <= 2 * (2 * dl)) by (apply Rmult_le_compat; lra).
  replace (fdot A (vx r') (vy r') (vz r') p' (vx c') (vy c') (vz c') 0 - vdot r c - vdot (vsub r' r) c)
    with ((fdot A (vx r') (vy r') (vz r') p' (vx c') (vy c') (vz c') 0 - vdot r' c') + vdot r' (vsub c' c)) by (unfold vdot, vsub; cbn [vx vy vz]; ring).
  eapply Rle_trans; [apply Rabs_triang|]. lra.
Qed.
Lemma pos_err e f P r p r' p' t t' dt : rowok e f P r p r' p' -> 0 <= e <= 1 / 2 -> len (vsub t' t) <= 2 * dt ->
  Rabs (fdot A (vx r') (vy r') (vz r') p' (vx t') (vy t') (vz t') 1 - (vdot r t + p)) <= f + e * len t + 4 * dt + g * (2 * len t + 4 * dt + P + f) + h.
Proof.
  intros (R1 & R2 & R3 & R4) E Dt. pose proof (dot_err r' p' t' 1) as D. rewrite !Rmult_1_r in D.
  pose proof (len_sub_le _ _ _ R2) as Lr'. pose proof (len_sub_le _ _ _ Dt) as Lt'. pose proof (len_nonneg r'). pose proof (len_nonneg t'). pose proof (len_nonneg t). pose proof (len_nonneg (vsub t' t)).
  pose proof (abs_tri _ _ _ R4) as Lp.
  assert (M : len r' * len t' <= 2 * (len t + 2 * dt)) by (apply Rmult_le_compat; lra).
  assert (M' : g * (len r' * len t' + Rabs p') <= g * (2 * len t + 4 * dt + P + f)) by (apply Rmult_le_compat_l; lra).
  pose proof (abs_vdot r' (vsub t' t)) as V1. pose proof (abs_vdot (vsub r' r) t) as V2. pose proof (len_nonneg (vsub r' r)).
  assert (V1' : len r' * len (vsub t' t) <= 2 * (2 * dt)) by (apply Rmult_le_compat; lra).
  assert (V2' : len (vsub r' r) * len t <= e * len t) by (apply Rmult_le_compat_r; lra).
  replace (fdot A (vx r') (vy r') (vz r') p' (vx t') (vy t') (vz t') 1 - (vdot r t + p))
    with ((fdot A (vx r') (vy r') (vz r') p' (vx t') (vy t') (vz t') 1 - (vdot r' t' + p')) + (vdot r' (vsub t' t) + vdot (vsub r' r) t + (p' - p))) by (unfold vdot, vsub; cbn [vx vy vz]; ring).
  eapply Rle_trans; [apply Rabs_triang|]. pose proof (Rabs_triang (vdot r' (vsub t' t) + vdot (vsub r' r) t) (p' - p)). pose proof (Rabs_triang (vdot r' (vsub t' t)) (vdot (vsub r' r) t)). lra.
Qed.
Lemma mtr_vdot B r : mapply (mtr B) r = V3 (vdot r (col0 B)) (vdot r (col1 B)) (vdot r (col2 B)).
Proof. unfold mapply, mtr, vdot, col0, col1, col2. cbn. apply vec3_eq; cbn; ring. Qed.
Lemma mtr_rotation B : rotation B -> rotation (mtr B).
Proof. apply rotation_tr. Qed.
Lemma col_len B : rotation B -> len (col0 B) <= 1 /\ len (col1 B) <= 1 /\ len (col2 B) <= 1.
Proof.
  intros H. assert (E : forall v, norm2 v = 1 -> len (mapply B v) <= 1). { intros v Hv. rewrite len_rot by auto. unfold len. rewrite Hv, sqrt_1. lra. }
  assert (C0 : col0 B = mapply B (V3 1 0 0)) by (unfold col0, mapply; cbn; apply vec3_eq; cbn; ring).
  assert (C1 : col1 B = mapply B (V3 0 1 0)) by (unfold col1, mapply; cbn; apply vec3_eq; cbn; ring).
  assert (C2 : col2 B = mapply B (V3 0 0 1)) by (unfold col2, mapply; cbn; apply vec3_eq; cbn; ring).
  rewrite C0, C1, C2. repeat split; apply E; unfold norm2, vdot; cbn; ring.
Qed.
Lemma row_step e f P r p r' p' Y Y' dt : rowok e f P r p r' p' -> 0 <= e <= 1 / 2 ->
  rigid Y -> brow Y' = v0 -> bww Y' = 1 ->
  len (vsub (col0 (rot Y')) (col0 (rot Y))) <= 2 * dl -> len (vsub (col1 (rot Y')) (col1 (rot Y))) <= 2 * dl -> len (vsub (col2 (rot Y')) (col2 (rot Y))) <= 2 * dl ->
  len (vsub (pos Y') (pos Y)) <= 2 * dt ->
  rowok (e + kap u eta g h) (f + e * len (pos Y) + 4 * dt + g * (2 * len (pos Y) + 4 * dt + P + f) + h) (P + 3 / 2 * len (pos Y))
    (mapply (mtr (rot Y)) r) (vdot r (pos Y) + p) (dotrow r' p' Y') (dotpos r' p' Y').
Proof.
  intros H E [Rt Rb Rw] B' W' K0 K1 K2 Kt. pose proof H as (R1 & R2 & R3 & R4).
  pose proof (len_sub_le _ _ _ R2) as Lr'. assert (L2 : len r' <= 2) by lra. destruct (col_len _ Rt) as (N0 & N1 & N2).
  split; [rewrite len_rot by (apply mtr_rotation; auto); exact R1|]. split; [|split].
  - set (z := mapply (mtr (rot Y)) (vsub r' r)).
    assert (X : vsub (dotrow r' p' Y') (mapply (mtr (rot Y)) r) = vadd (vsub (vsub (dotrow r' p' Y') (mapply (mtr (rot Y)) r)) z) z) by (unfold z; vring).
    rewrite X. eapply Rle_trans; [apply len_add|]. assert (Z : len z <= e) by (unfold z; rewrite len_rot by (apply mtr_rotation; auto); exact R2).
    assert (W : len (vsub (vsub (dotrow r' p' Y') (mapply (mtr (rot Y)) r)) z) <= kap u eta g h); [|lra].
    eapply Rle_trans; [apply len_abs_le|]. unfold z. rewrite !mtr_vdot. unfold dotrow. rewrite B'. cbn [v0 vsub vx vy vz].
    pose proof (entry_err r r' p' _ _ L2 N0 K0). pose proof (entry_err r r' p' _ _ L2 N1 K1). pose proof (entry_err r r' p' _ _ L2 N2 K2). unfold kap. fold dl. lra.
  - pose proof (abs_vdot r (pos Y)). pose proof (Rabs_triang (vdot r (pos Y)) p). pose proof (len_nonneg (pos Y)).
    assert (len r * len (pos Y) <= 3 / 2 * len (pos Y)) by (apply Rmult_le_compat_r; lra). lra.
  - unfold dotpos. rewrite W'. apply (pos_err e f P); auto.
Qed.

(** ** Frames *)
Definition track (e f P : R) (T T' : mat4) : Prop :=
  rowok e f P (row0 (rot T)) (vx (pos T)) (row0 (rot T')) (vx (pos T')) /\
  rowok e f P (row1 (rot T)) (vy (pos T)) (row1 (rot T')) (vy (pos T')) /\
  rowok e f P (row2 (rot T)) (vz (pos T)) (row2 (rot T')) (vz (pos T')) /\
  (brow T = v0 /\ bww T = 1) /\ brow T' = v0 /\ bww T' = 1.
Lemma fmul_rows X Y : brow X = v0 -> bww X = 1 -> brow Y = v0 -> bww Y = 1 ->
  (row0 (rot (fmul A X Y)) = dotrow (row0 (rot X)) (vx (pos X)) Y /\ row1 (rot (fmul A X Y)) = dotrow (row1 (rot X)) (vy (pos X)) Y /\ row2 (rot (fmul A X Y)) = dotrow (row2 (rot X)) (vz (pos X)) Y) /\
  (vx (pos (fmul A X Y)) = dotpos (row0 (rot X)) (vx (pos X)) Y /\ vy (pos (fmul A X Y)) = dotpos (row1 (rot X)) (vy (pos X)) Y /\ vz (pos (fmul A X Y)) = dotpos (row2 (rot X)) (vz (pos X)) Y) /\
  brow (fmul A X Y) = v0 /\ bww (fmul A X Y) = 1.
Proof.
  intros HX HX' HY HY'. repeat split.
  - unfold fmul. rewrite HX, HX', HY. cbn [brow v0 vx vy vz]. rewrite !(ok_zero _ _ _ _ _ OK). reflexivity.
  - unfold fmul. rewrite HX, HX', HY'. cbn [bww v0 vx vy vz]. apply (ok_one _ _ _ _ _ OK).
Qed.
Lemma tmul_rows X Y : brow X = v0 -> bww X = 1 -> brow Y = v0 -> bww Y = 1 ->
  (row0 (rot (tmul X Y)) = mapply (mtr (rot Y)) (row0 (rot X)) /\ row1 (rot (tmul X Y)) = mapply (mtr (rot Y)) (row1 (rot X)) /\ row2 (rot (tmul X Y)) = mapply (mtr (rot Y)) (row2 (rot X))) /\
  (vx (pos (tmul X Y)) = vdot (row0 (rot X)) (pos Y) + vx (pos X) /\ vy (pos (tmul X Y)) = vdot (row1 (rot X)) (pos Y) + vy (pos X) /\ vz (pos (tmul X Y)) = vdot (row2 (rot X)) (pos Y) + vz (pos X)) /\
  brow (tmul X Y) = v0 /\ bww (tmul X Y) = 1.
Proof.
  destruct X as [[a b c d e f g' h' i] [x y z] bX wX], Y as [[a' b' c' d' e' f' g'' h'' i'] [x' y' z'] bY wY]. cbn [brow bww]. intros -> -> -> ->.
  unfold tmul, row0, row1, row2, mapply, mtr, vdot, madd, mmul, mouter, vadd, vscale, v0. cbn. repeat split; try apply vec3_eq; cbn; ring.
Qed.
Lemma track_step e f P T T' Y Y' dt : track e f P T T' -> 0 <= e <= 1 / 2 -> rigid Y -> brow Y' = v0 -> bww Y' = 1 ->
  len (vsub (col0 (rot Y')) (col0 (rot Y))) <= 2 * dl -> len (vsub (col1 (rot Y')) (col1 (rot Y))) <= 2 * dl -> len (vsub (col2 (rot Y')) (col2 (rot Y))) <= 2 * dl ->
  len (vsub (pos Y') (pos Y)) <= 2 * dt ->
  track (e + kap u eta g h) (f + e * len (pos Y) + 4 * dt + g * (2 * len (pos Y) + 4 * dt + P + f) + h) (P + 3 / 2 * len (pos Y)) (tmul T Y) (fmul A T' Y').
Proof.
  intros (T0 & T1 & T2 & (Tb & Tw) & T'b & T'w) E RY B' W' K0 K1 K2 Kt. pose proof RY as [_ Yb Yw].
  destruct (fmul_rows T' Y' T'b T'w B' W') as ((F0 & F1 & F2) & (G0 & G1 & G2) & Fb & Fw).
  destruct (tmul_rows T Y Tb Tw Yb Yw) as ((A0 & A1 & A2) & (B0 & B1 & B2) & Ab & Aw).
  unfold track. rewrite F0, F1, F2, G0, G1, G2, A0, A1, A2, B0, B1, B2. split; [|split; [|split]]; [apply (row_step e f P _ _ _ _ Y Y' dt); auto ..|auto].
Qed.
Lemma rowok_le e f P e' f' P' r p r' p' : e <= e' -> f <= f' -> P <= P' -> rowok e f P r p r' p' -> rowok e' f' P' r p r' p'.
Proof. intros ? ? ? (H1 & H2 & H3 & H4). unfold rowok. repeat split; lra. Qed.
Lemma track_le e f P e' f' P' T T' : e <= e' -> f <= f' -> P <= P' -> track e f P T T' -> track e' f' P' T T'.
Proof. intros ? ? ? (T0 & T1 & T2 & T3). split; [|split; [|split]]; [eapply rowok_le; [..|eassumption]; auto ..|auto]. Qed.

(** ** The loop *)
Lemma kap_pos : 0 <= kap u eta g h. Proof. unfold kap. lra. Qed.
Lemma lspec_off l q : l_jt l <> JOther -> len (pos (lspec l q)) <= off l q.
Proof.
  intros J. assert (G : forall a al d t, len (pos (dhm a al d t)) <= Rabs a + Rabs d).
  { intros a al d t. rewrite <- (write_T_dhm eye4) by (repeat split). cbn [write_T pos].
    replace (V3 (a * cos t) (a * sin t) d) with (vadd (V3 (a * cos t) (a * sin t) 0) (V3 0 0 d)) by vring. eapply Rle_trans; [apply len_add|]. rewrite len_z.
    replace (len (V3 (a * cos t) (a * sin t) 0)) with (Rabs a); [lra|]. unfold len, norm2, vdot. cbn. rewrite <- sqrt_Rsqr_abs. f_equal. unfold Rsqr.
    pose proof (sin2_cos2 t) as S. unfold Rsqr in S. replace (a * a) with (a * a * (sin t * sin t + cos t * cos t)) by (rewrite S; ring). ring. }
  unfold lspec, off. destruct (l_jt l); try congruence; apply G.
Qed.
Lemma flink_snd l l' q q' : link_near u eta l l' -> joint_near u eta l q q' -> l_jt l <> JOther -> exists Y', snd (flink_transform A l' q') = Ok Y' /\
  brow Y' = v0 /\ bww Y' = 1 /\
  (len (vsub (col0 (rot Y')) (col0 (rot (lspec l q)))) <= 2 * dl /\ len (vsub (col1 (rot Y')) (col1 (rot (lspec l q)))) <= 2 * dl /\ len (vsub (col2 (rot Y')) (col2 (rot (lspec l q)))) <= 2 * dl) /\
  len (vsub (pos Y') (pos (lspec l q))) <= 2 * (8 * u * off l q + 3 * eta).
Proof.
  intros (C & Jt & Na & Nd & Nal & Nth) Nq J. unfold flink_transform, lspec, joint_near, off in *. rewrite Jt. assert (C0 : clean_T eye4) by (repeat split).
  destruct (l_jt l); try congruence; cbn [snd].
  - destruct (wclose eye4 (l_T l') _ _ _ _ _ _ _ _ C0 C Na Nd Nal Nq) as (W1 & W2 & W3). rewrite write_T_dhm in W1, W2 by exact C0.
    eexists. split; [reflexivity|]. split; [apply W3|]. split; [apply W3|]. split; assumption.
  - destruct (wclose eye4 (l_T l') _ _ _ _ _ _ _ _ C0 C Na Nq Nal Nth) as (W1 & W2 & W3). rewrite write_T_dhm in W1, W2 by exact C0.
    eexists. split; [reflexivity|]. split; [apply W3|]. split; [apply W3|]. split; assumption.
Qed.
Lemma off_nonneg l q : 0 <= off l q.
Proof. unfold off. pose proof (Rabs_pos (da (l_dh l))). pose proof (Rabs_pos (match l_jt l with JP => q | _ => dd (l_dh l) end)). lra. Qed.
(** one link *)
Lemma link_step e f P T T' l l' q q' : link_near u eta l l' -> joint_near u eta l q q' -> l_jt l <> JOther -> 0 <= e <= 1 / 2 -> track e f P T T' ->
  exists Y', snd (flink_transform A l' q') = Ok Y' /\
  track (e + kap u eta g h) (fnext u eta g h l q e f P) (P + 3 / 2 * off l q) (tmul T (lspec l q)) (fmul A T' Y').
Proof.
  intros N Nq J E H. destruct (flink_snd l l' q q' N Nq J) as (Y' & F1 & F3 & F4 & (F5 & F6 & F7) & F8). exists Y'. split; [exact F1|].
  pose proof (track_step e f P T T' (lspec l q) Y' _ H E (lspec_rigid l q) F3 F4 F5 F6 F7 F8) as S.
  pose proof (lspec_off l q J) as O. pose proof (off_nonneg l q) as O0. revert S. apply track_le; [lra| |lra]. unfold fnext. cbn zeta.
  apply Rplus_le_compat_r. apply Rplus_le_compat; [|apply Rmult_le_compat_l; lra]. apply Rplus_le_compat_r, Rplus_le_compat_l, Rmult_le_compat_l; lra.
Qed.
Lemma track_close e f P T T' : track e f P T T' -> close e f T T'.
Proof.
  intros ((_ & A1 & _ & A2) & (_ & B1 & _ & B2) & (_ & C1 & _ & C2) & (D1 & D2) & D3 & D4). unfold close. rewrite D1, D2, D3, D4.
  pose proof (len_comp (vsub (row0 (rot T')) (row0 (rot T)))) as (a1 & a2 & a3). pose proof (len_comp (vsub (row1 (rot T')) (row1 (rot T)))) as (b1 & b2 & b3).
  pose proof (len_comp (vsub (row2 (rot T')) (row2 (rot T)))) as (c1 & c2 & c3). unfold vsub, row0, row1, row2 in *. cbn [vx vy vz] in *. repeat split; auto; lra.
Qed.
(** the product with the tool frame *)
Lemma rd_len x y z x' y' z' b : Rabs x <= b -> Rabs y <= b -> Rabs z <= b -> rd u eta x x' -> rd u eta y y' -> rd u eta z z' -> len (vsub (V3 x' y' z') (V3 x y z)) <= 2 * (u * b + eta).
Proof.
  unfold rd. intros Hx Hy Hz X Y Z. apply len3; cbn [vsub vx vy vz].
  - assert (u * Rabs x <= u * b) by (apply Rmult_le_compat_l; lra). lra.
  - assert (u * Rabs y <= u * b) by (apply Rmult_le_compat_l; lra). lra.
  - assert (u * Rabs z <= u * b) by (apply Rmult_le_compat_l; lra). lra.
Qed.
Lemma vec3_eta v : v = V3 (vx v) (vy v) (vz v). Proof. destruct v; reflexivity. Qed.
Lemma tool_close e f P T T' tf tf' : track e f P T T' -> 0 <= e <= 1 / 2 -> frame_near u eta tf tf' -> brow tf = v0 -> bww tf = 1 ->
  len (col0 (rot tf)) <= 2 -> len (col1 (rot tf)) <= 2 -> len (col2 (rot tf)) <= 2 ->
  close (2 * e + 5 * g + h + 8 * u + 4 * eta) (f + e * len (pos tf) + 4 * (u * len (pos tf) + eta) + g * (2 * len (pos tf) + 4 * (u * len (pos tf) + eta) + P + f) + h) (tmul T tf) (fmul A T' tf').
Proof.
  intros (T0 & T1 & T2 & (Tb & Tw) & T'b & T'w) E ((n00 & n01 & n02) & (n10 & n11 & n12) & (n20 & n21 & n22) & (n3 & n4 & n5) & nb & nw) Yb Yw L0 L1 L2.
  rewrite Yb in nb. rewrite Yw in nw.
  destruct (fmul_rows T' tf' T'b T'w nb nw) as ((F0 & F1 & F2) & (G0 & G1 & G2) & Fb & Fw).
  destruct (tmul_rows T tf Tb Tw Yb Yw) as ((A0 & A1 & A2) & (B0 & B1 & B2) & Ab & Aw).
  assert (EU : eta <= 1 / 12) by (unfold dl in Hd; lra).
  assert (En : forall r p r' p' c c', rowok e f P r p r' p' -> len c <= 2 -> len (vsub c' c) <= 2 * (u * 2 + eta) -> Rabs (fdot A (vx r') (vy r') (vz r') p' (vx c') (vy c') (vz c') 0 - vdot r c) <= 2 * e + 5 * g + h + 8 * u + 4 * eta).
  { intros r p r' p' c c' (R1 & R2 & _) Lc Nc. pose proof (dot_err r' p' c' 0) as D. rewrite Rmult_0_r, Rabs_R0, !Rplus_0_r in D.
    pose proof (len_sub_le _ _ _ R2). pose proof (len_sub_le _ _ _ Nc). pose proof (len_nonneg r'). pose proof (len_nonneg c). pose proof (len_nonneg c'). pose proof (len_nonneg (vsub r' r)). pose proof (len_nonneg (vsub c' c)).
    assert (M : len r' * len c' <= 2 * (5 / 2)) by (apply Rmult_le_compat; lra). assert (M' : g * (len r' * len c') <= g * (2 * (5 / 2))) by (apply Rmult_le_compat_l; lra).
    pose proof (abs_vdot (vsub r' r) c) as V. assert (V' : len (vsub r' r) * len c <= e * 2) by (apply Rmult_le_compat; lra).
    pose proof (abs_vdot r' (vsub c' c)) as W. assert (W' : len r' * len (vsub c' c) <= 2 * (2 * (u * 2 + eta))) by (apply Rmult_le_compat; lra).
    assert (Q : Rabs (vdot r' c' - vdot r c) <= e * 2 + 2 * (2 * (u * 2 + eta))).
    { replace (vdot r' c' - vdot r c) with (vdot (vsub r' r) c + vdot r' (vsub c' c)) by (unfold vdot, vsub; cbn [vx vy vz]; ring). eapply Rle_trans; [apply Rabs_triang|]. lra. }
    pose proof (abs3 _ _ _ _ _ D Q). lra. }
  pose proof (len_comp (col0 (rot tf))) as (k00 & k01 & k02). pose proof (len_comp (col1 (rot tf))) as (k10 & k11 & k12). pose proof (len_comp (col2 (rot tf))) as (k20 & k21 & k22).
  cbn [col0 col1 col2 vx vy vz] in k00, k01, k02, k10, k11, k12, k20, k21, k22.
  assert (N0 : len (vsub (col0 (rot tf')) (col0 (rot tf))) <= 2 * (u * 2 + eta)) by (apply rd_len; auto; eapply Rle_trans; eassumption).
  assert (N1 : len (vsub (col1 (rot tf')) (col1 (rot tf))) <= 2 * (u * 2 + eta)) by (apply rd_len; auto; eapply Rle_trans; eassumption).
  assert (N2 : len (vsub (col2 (rot tf')) (col2 (rot tf))) <= 2 * (u * 2 + eta)) by (apply rd_len; auto; eapply Rle_trans; eassumption).
  pose proof (len_comp (pos tf)) as (k3 & k4 & k5).
  assert (Z : len (vsub (pos tf') (pos tf)) <= 2 * (u * len (pos tf) + eta)).
  { rewrite (vec3_eta (pos tf')), (vec3_eta (pos tf)) at 1. apply rd_len; auto. }
  assert (Pn : forall r p r' p', rowok e f P r p r' p' -> Rabs (fdot A (vx r') (vy r') (vz r') p' (vx (pos tf')) (vy (pos tf')) (vz (pos tf')) 1 - (vdot r (pos tf) + p)) <=
    f + e * len (pos tf) + 4 * (u * len (pos tf) + eta) + g * (2 * len (pos tf) + 4 * (u * len (pos tf) + eta) + P + f) + h).
  { intros r p r' p' R. exact (pos_err e f P r p r' p' _ _ _ R E Z). }
  unfold close. rewrite Fb, Fw, Ab, Aw, G0, G1, G2, B0, B1, B2. unfold dotpos. rewrite nw.
  assert (Q : forall M v, V3 (m00 M) (m01 M) (m02 M) = v -> m00 M = vx v /\ m01 M = vy v /\ m02 M = vz v) by (intros; subst; auto).
  assert (Q1 : forall M v, V3 (m10 M) (m11 M) (m12 M) = v -> m10 M = vx v /\ m11 M = vy v /\ m12 M = vz v) by (intros; subst; auto).
  assert (Q2 : forall M v, V3 (m20 M) (m21 M) (m22 M) = v -> m20 M = vx v /\ m21 M = vy v /\ m22 M = vz v) by (intros; subst; auto).
  rewrite mtr_vdot in A0, A1, A2. unfold dotrow in F0, F1, F2. rewrite nb in F0, F1, F2. cbn [v0 vx vy vz] in F0, F1, F2.
  apply Q in F0, A0. apply Q1 in F1, A1. apply Q2 in F2, A2. cbn [vx vy vz] in F0, F1, F2, A0, A1, A2.
  destruct F0 as (-> & -> & ->), F1 as (-> & -> & ->), F2 as (-> & -> & ->), A0 as (-> & -> & ->), A1 as (-> & -> & ->), A2 as (-> & -> & ->).
  repeat split; first [apply Pn; assumption | apply (En _ _ _ _ _ _ T0); assumption | apply (En _ _ _ _ _ _ T1); assumption | apply (En _ _ _ _ _ _ T2); assumption].
Qed.
Lemma sane_track P T T' : sane P T -> frame_near u eta T T' -> track (3 * u + 2 * eta) (u * P + eta) P T T'.
Proof.
  intros ((R0 & R1 & R2) & (P0 & P1 & P2) & B & W) ((n00 & n01 & n02) & (n10 & n11 & n12) & (n20 & n21 & n22) & (n3 & n4 & n5) & nb & nw).
  pose proof (len_comp (row0 (rot T))) as (k00 & k01 & k02). pose proof (len_comp (row1 (rot T))) as (k10 & k11 & k12). pose proof (len_comp (row2 (rot T))) as (k20 & k21 & k22).
  cbn [row0 row1 row2 vx vy vz] in k00, k01, k02, k10, k11, k12, k20, k21, k22.
  assert (N0 : len (vsub (row0 (rot T')) (row0 (rot T))) <= 2 * (u * (3 / 2) + eta)) by (apply rd_len; auto; eapply Rle_trans; eassumption).
  assert (N1 : len (vsub (row1 (rot T')) (row1 (rot T))) <= 2 * (u * (3 / 2) + eta)) by (apply rd_len; auto; eapply Rle_trans; eassumption).
  assert (N2 : len (vsub (row2 (rot T')) (row2 (rot T))) <= 2 * (u * (3 / 2) + eta)) by (apply rd_len; auto; eapply Rle_trans; eassumption).
  assert (Z : forall x x', Rabs x <= P -> rd u eta x x' -> Rabs (x' - x) <= u * P + eta). { unfold rd. intros x x' Hx H. assert (u * Rabs x <= u * P) by (apply Rmult_le_compat_l; lra). lra. }
  unfold track, rowok. repeat split; auto; try lra; congruence.
Qed.
(** tool of a robot *)
Definition tool_ok (r : robot) : Prop :=
  match r_tool r with
  | Some (_, tf) => brow tf = v0 /\ bww tf = 1 /\ len (col0 (rot tf)) <= 2 /\ len (col1 (rot tf)) <= 2 /\ len (col2 (rot tf)) <= 2
  | None => True
  end.

(** ** Closed form *)
Definition cst (N : R) : R := N + 32 * u + g * (2 + 32 * u).
Definition kst (B : R) : R := 12 * eta + g * (12 * eta + B) + h.
Lemma span_nonneg ls q : 0 <= span ls q.
Proof.
  revert q. induction ls as [|l ls IH]; intros [|qi q]; cbn; try lra. pose proof (IH q). pose proof (off_nonneg l qi). unfold off in *. lra.
Qed.
Lemma span_off l ls qi q : span (l :: ls) (qi :: q) = off l qi + span ls q. Proof. reflexivity. Qed.
Lemma fnext_le l qi e f P N B : 0 <= e <= N -> P + f <= B -> fnext u eta g h l qi e f P <= f + cst N * off l qi + kst B.
Proof.
  intros E H. unfold fnext, cst, kst. cbn zeta. pose proof (off_nonneg l qi) as O0.
  assert (M1 : e * off l qi <= N * off l qi) by (apply Rmult_le_compat_r; lra).
  assert (M3 : g * (2 * off l qi + 4 * (8 * u * off l qi + 3 * eta) + P + f) <= g * ((2 + 32 * u) * off l qi + (12 * eta + B))) by (apply Rmult_le_compat_l; lra).
  lra.
Qed.
Lemma fnext_nonneg l qi e f P : 0 <= e -> 0 <= P -> 0 <= f -> 0 <= fnext u eta g h l qi e f P.
Proof.
  intros E0 P0 F0. unfold fnext. cbn zeta. pose proof (off_nonneg l qi) as O0. pose proof (Rmult_le_pos _ _ E0 O0). pose proof (Rmult_le_pos _ _ (proj1 Hu) O0).
  pose proof (Rmult_le_pos g (2 * off l qi + 4 * (8 * u * off l qi + 3 * eta) + P + f) Hg ltac:(lra)). lra.
Qed.
Lemma kst_pos B : 0 <= B -> 0 <= kst B.
Proof. intros. unfold kst. pose proof (Rmult_le_pos g (12 * eta + B) Hg ltac:(lra)). lra. Qed.
Lemma cst_pos N : 0 <= N -> 0 <= cst N.
Proof. intros. unfold cst. pose proof (Rmult_le_pos g (2 + 32 * u) Hg ltac:(lra)). lra. Qed.
Lemma Forall2_impl' {X Y} (P Q : X -> Y -> Prop) l l' : (forall x y, P x y -> Q x y) -> Forall2 P l l' -> Forall2 Q l l'.
Proof. intros H. induction 1; constructor; auto. Qed.
(** the whole loop, with every frame on the way *)
Lemma floop_err : forall ls q e f P T T' ls' q' E F B, Forall2 (link_near u eta) ls ls' -> joints_near u eta ls q q' -> Forall (fun l => l_jt l <> JOther) ls ->
  0 <= e -> e + INR (length ls) * kap u eta g h <= E -> E <= 1 / 2 -> 0 <= B -> 0 <= P -> 0 <= f ->
  f + cst E * span ls q + INR (length ls) * kst B <= F -> P + 3 / 2 * span ls q + F <= B -> track e f P T T' ->
  (exists Z Z', fkp ls q T = Ok Z /\ snd (ffk_loop A ls' q' T') = Ok Z' /\ track E F (P + 3 / 2 * span ls q) Z Z') /\
  (exists X X', framesp ls q T = Ok X /\ snd (fframes_loop A ls' q' T') = Ok X' /\ Forall2 (track E F (P + 3 / 2 * span ls q)) X X').
Proof.
  induction ls as [|l ls IH]; intros q e f P T T' ls' q' E F B N Nq J E0 E1 E2 B0 P0 F0 F1 F2 H; inversion N as [|? l' ? ls1 Nl Ns]; subst; inversion Nq as [|? ? qi qi' qs qs' Nj Njs]; subst.
  - cbn in *. split; [exists T, T'|exists [], []; auto]. split; [auto|]. split; [auto|]. revert H. apply track_le; lra.
  - inversion J as [|? ? Jl Js]; subst.
    cbn [length] in E1, F1. rewrite S_INR in E1, F1. rewrite span_off in F1, F2. pose proof kap_pos as K0. pose proof (pos_INR (length ls)) as N0. pose proof (Rmult_le_pos _ _ N0 K0) as NK.
    assert (E3 : e <= 1 / 2) by lra. destruct (link_step e f P T T' l l' qi qi' Nl Nj Jl (conj E0 E3) H) as (Y' & G1 & S').
    pose proof (off_nonneg l qi) as O0. pose proof (span_nonneg ls qs) as S0.
    pose proof (cst_pos E ltac:(lra)) as C0. pose proof (kst_pos B B0) as Kb.
    pose proof (Rmult_le_pos _ _ C0 S0) as CS. pose proof (Rmult_le_pos _ _ C0 O0) as CO. pose proof (Rmult_le_pos _ _ N0 Kb) as NB.
    assert (Hn : fnext u eta g h l qi e f P <= f + cst E * off l qi + kst B) by (apply fnext_le; lra).
    assert (Hf : 0 <= fnext u eta g h l qi e f P) by (apply fnext_nonneg; auto).
    destruct (IH qs (e + kap u eta g h) (fnext u eta g h l qi e f P) (P + 3 / 2 * off l qi) _ _ ls1 qs' E F B Ns Njs Js ltac:(lra) ltac:(lra) E2 B0 ltac:(lra) Hf ltac:(lra) ltac:(lra) S') as ((Z & Z' & I1 & I2 & I3) & (X & X' & I4 & I5 & I6)).
    split.
    + exists Z, Z'. split; [|split].
      * cbn [fkp]. destruct (l_jt l); try congruence; exact I1.
      * cbn [ffk_loop]. destruct (flink_transform A l' qi') as [l1 R1]. cbn [snd] in G1. subst R1. destruct (ffk_loop A ls1 qs' (fmul A T' Y')) as [ls2 R2]. exact I2.
      * rewrite span_off. revert I3. apply track_le; lra.
    + exists (tmul T (lspec l qi) :: X), (fmul A T' Y' :: X'). split; [|split].
      * cbn [framesp]. rewrite I4. cbn [bind]. destruct (l_jt l); try congruence; reflexivity.
      * cbn [fframes_loop]. destruct (flink_transform A l' qi') as [l1 R1]. cbn [snd] in G1. subst R1. destruct (fframes_loop A ls1 qs' (fmul A T' Y')) as [ls2 R2]. cbn [snd] in *. rewrite I5. reflexivity.
      * rewrite span_off. constructor; [revert S'; apply track_le; lra|]. revert I6. apply Forall2_impl'. intros ? ?. apply track_le; lra.
Qed.
Lemma ffk_close r r' q q' P : good r -> joints_ok r -> sane P (r_tfb r) -> tool_ok r -> robot_near u eta r r' -> joints_near u eta (r_links r) q q' ->
  let E := rot_bound u eta g h (ndof r) in let S := span (r_links r) q in let F := pos_bound u eta g h (ndof r) S P in
  E <= 1 / 2 -> F <= 1 ->
  (exists T T', snd (fk r q) = Ok T /\ snd (ffk A r' q') = Ok T' /\
   match r_tool r with
   | Some (_, tf) => let L := len (pos tf) in close (2 * E + 5 * g + h + 8 * u + 4 * eta) (F + E * L + 4 * (u * L + eta) + g * (2 * L + 4 * (u * L + eta) + (P + 3 / 2 * S) + F) + h) T T'
   | None => close E F T T'
   end) /\
  (exists X X', snd (fk_all_links r q) = Ok X /\ snd (ffk_all_links A r' q') = Ok X' /\ Forall2 (close E F) X X').
Proof.
  intros G J Sn Tt [NL NB NT] Nq E S F HE HF.
  assert (P0 : 0 <= P). { destruct Sn as (_ & (a & _) & _). pose proof (Rabs_pos (vx (pos (r_tfb r)))). lra. }
  pose proof (span_nonneg (r_links r) q) as S0. fold S in S0. pose proof (Rmult_le_pos _ _ (proj1 Hu) P0) as UP.
  pose proof kap_pos as K0. pose proof (pos_INR (ndof r)) as N0. pose proof (Rmult_le_pos _ _ N0 K0) as NK.
  destruct (floop_err (r_links r) q (3 * u + 2 * eta) (u * P + eta) P (r_tfb r) (r_tfb r') (r_links r') q' E F (P + 3 / 2 * S + 1) NL Nq J) as ((Z & Z' & I1 & I2 & I3) & (X & X' & I4 & I5 & I6)); try lra.
  - unfold E, rot_bound, ndof. lra.
  - unfold F, pos_bound, cst, kst, ndof. fold S. unfold E, ndof. lra.
  - fold S. lra.
  - apply sane_track; auto.
  - split.
    + rewrite fk_snd by auto. rewrite I1. cbn [bind]. unfold ffk. destruct (ffk_loop A (r_links r') q' (r_tfb r')) as [ls R1]. cbn [snd] in I2. subst R1. cbn [bind snd]. unfold tooled, tool_ok in *.
      destruct (r_tool r) as [[c tf]|], (r_tool r') as [[c' tf']|]; try contradiction; do 2 eexists; (split; [reflexivity|]); (split; [reflexivity|]).
      * destruct Tt as (t1 & t2 & t3 & t4 & t5). cbn zeta. apply tool_close; auto. unfold E, rot_bound. unfold E, rot_bound in HE. lra.
      * eapply track_close; exact I3.
    + rewrite frames_snd by auto. unfold ffk_all_links. destruct (fframes_loop A (r_links r') q' (r_tfb r')) as [ls R1]. cbn [snd] in *. exists X, X'. split; [auto|]. split; [auto|]. revert I6. apply Forall2_impl'. intros ? ?. apply track_close.
Qed.
(** the same for the frames of the links, with bounds on their positions *)
Lemma ffk_tracks r r' q q' P : good r -> joints_ok r -> sane P (r_tfb r) -> robot_near u eta r r' -> joints_near u eta (r_links r) q q' ->
  let E := rot_bound u eta g h (ndof r) in let S := span (r_links r) q in let F := pos_bound u eta g h (ndof r) S P in
  E <= 1 / 2 -> F <= 1 ->
  track E F (P + 3 / 2 * S) (r_tfb r) (r_tfb r') /\
  (exists X X', snd (fk_all_links r q) = Ok X /\ snd (ffk_all_links A r' q') = Ok X' /\ Forall2 (track E F (P + 3 / 2 * S)) X X').
Proof.
  intros G J Sn [NL NB NT] Nq E S F HE HF.
  assert (P0 : 0 <= P). { destruct Sn as (_ & (a & _) & _). pose proof (Rabs_pos (vx (pos (r_tfb r)))). lra. }
  pose proof (span_nonneg (r_links r) q) as S0. fold S in S0. pose proof (Rmult_le_pos _ _ (proj1 Hu) P0) as UP.
  pose proof kap_pos as K0. pose proof (pos_INR (ndof r)) as N0. pose proof (Rmult_le_pos _ _ N0 K0) as NK.
  assert (E1 : 3 * u + 2 * eta <= E) by (unfold E, rot_bound; lra).
  pose proof (kst_pos (P + 3 / 2 * S + 1) ltac:(lra)) as Kb. pose proof (cst_pos E ltac:(lra)) as C0.
  assert (F1 : u * P + eta <= F).
  { pose proof (Rmult_le_pos _ _ C0 S0). pose proof (Rmult_le_pos _ _ N0 Kb). unfold F, pos_bound. fold E. change (E + 32 * u + g * (2 + 32 * u)) with (cst E).
    change (12 * eta + g * (12 * eta + (P + 3 / 2 * S + 1)) + h) with (kst (P + 3 / 2 * S + 1)). lra. }
  pose proof (sane_track P (r_tfb r) (r_tfb r') Sn NB) as TB.
  split; [revert TB; apply track_le; lra|].
  destruct (floop_err (r_links r) q (3 * u + 2 * eta) (u * P + eta) P (r_tfb r) (r_tfb r') (r_links r') q' E F (P + 3 / 2 * S + 1) NL Nq J) as (_ & (X & X' & I4 & I5 & I6)); try lra; auto.
  - unfold E, rot_bound, ndof. lra.
  - unfold F, pos_bound, cst, kst, ndof. fold S. unfold E, ndof. lra.
  - fold S. lra.
  - rewrite frames_snd by auto. unfold ffk_all_links. destruct (fframes_loop A (r_links r') q' (r_tfb r')) as [ls R1]. cbn [snd] in *. exists X, X'. auto.
Qed.
End Err.

(** the calls leave the robot as the exact ones do *)
Lemma ffk_fst A r q : good r -> good (fst (ffk A r q)) /\ reset (fst (ffk A r q)) = reset r.
Proof.
  intros G. unfold ffk.
  assert (H : forall ls q T, Forall clean_link ls -> Forall clean_link (fst (ffk_loop A ls q T)) /\ map reset_link (fst (ffk_loop A ls q T)) = map reset_link ls).
  { clear. induction ls as [|l ls IH]; intros q T C; cbn [ffk_loop]; [auto|]. destruct q as [|qi q]; [auto|]. inversion C as [|? ? Cl Cs]; subst.
    assert (K : forall T1, clean_T T1 -> clean_link (set_T l T1) /\ reset_link (set_T l T1) = reset_link l) by (intros; split; auto).
    assert (W : forall a al d t, clean_T (fwrite_T A (l_T l) a al d t)) by (intros; destruct Cl as (c1 & c2 & c3); unfold clean_T, fwrite_T; cbn; auto).
    unfold flink_transform. destruct (l_jt l).
    - destruct (IH q (fmul A T (fwrite_T A (l_T l) (da (l_dh l)) (dalpha (l_dh l)) (dd (l_dh l)) qi)) Cs) as [I1 I2]. destruct (ffk_loop _ _ _ _) as [ls1 R1]. cbn [fst map] in *.
      destruct (K _ (W (da (l_dh l)) (dalpha (l_dh l)) (dd (l_dh l)) qi)). split; [constructor; auto|congruence].
    - destruct (IH q (fmul A T (fwrite_T A (l_T l) (da (l_dh l)) (dalpha (l_dh l)) qi (dtheta (l_dh l)))) Cs) as [I1 I2]. destruct (ffk_loop _ _ _ _) as [ls1 R1]. cbn [fst map] in *.
      destruct (K _ (W (da (l_dh l)) (dalpha (l_dh l)) qi (dtheta (l_dh l)))). split; [constructor; auto|congruence].
    - cbn [fst]. split; [constructor; auto|reflexivity]. }
  destruct (H (r_links r) q (r_tfb r) (good_clean _ G)) as [H1 H2]. destruct (ffk_loop A (r_links r) q (r_tfb r)) as [ls R1]. cbn [fst] in *. apply set_links_keep; auto.
Qed.

(** ** Double precision *)
Definition u64 : R := bpow radix2 (-53).
Definition eta64 : R := bpow radix2 (-1075).
Definition rnd64 : R -> R := round radix2 (FLT_exp (-1074) 53) ZnearestE.
(** sums from the left, every operation rounded; sin and cos correctly rounded *)
Definition double : arith := Ar rnd64 (fun x => rnd64 (sin x)) (fun x => rnd64 (cos x))
  (fun a0 a1 a2 a3 b0 b1 b2 b3 => rnd64 (rnd64 (rnd64 (rnd64 (a0 * b0) + rnd64 (a1 * b1)) + rnd64 (a2 * b2)) + rnd64 (a3 * b3))).
Lemma rnd64_err x : Rabs (rnd64 x - x) <= u64 * Rabs x + eta64.
Proof.
  destruct (error_N_FLT radix2 (-1074) 53 ltac:(lia) (fun z => negb (Z.even z)) x) as (ep & et & H1 & H2 & _ & H3). unfold rnd64. rewrite H3.
  replace (x * (1 + ep) + et - x) with (x * ep + et) by ring. eapply Rle_trans; [apply Rabs_triang|]. rewrite Rabs_mult.
  assert (E1 : / 2 * bpow radix2 (1 + -53) = u64). { unfold u64. rewrite bpow_plus. change (bpow radix2 1) with 2. field. }
  assert (E2 : / 2 * bpow radix2 (-1074) = eta64). { unfold eta64. change (-1074)%Z with (1 + (-1075))%Z. rewrite bpow_plus. change (bpow radix2 1) with 2. field. }
  assert (H1' : Rabs ep <= u64) by (rewrite <- E1; exact H1). assert (H2' : Rabs et <= eta64) by (rewrite <- E2; exact H2). pose proof (Rabs_pos x). assert (Rabs x * Rabs ep <= Rabs x * u64) by (apply Rmult_le_compat_l; auto). lra.
Qed.
Lemma u64_pos : 0 < u64. Proof. apply bpow_gt_0. Qed.
Lemma eta64_pos : 0 < eta64. Proof. apply bpow_gt_0. Qed.
Lemma u64_le : u64 <= 1.2e-16.
Proof. unfold u64. change (bpow radix2 (-53)) with (/ IZR 9007199254740992). lra. Qed.
Lemma eta64_le : eta64 <= u64 / 1000.
Proof.
  unfold eta64. apply Rle_trans with (bpow radix2 (-1000)); [apply bpow_le; lia|]. replace (-1000)%Z with (-53 + (-947))%Z by lia. rewrite bpow_plus. fold u64. unfold Rdiv. apply Rmult_le_compat_l; [left; apply u64_pos|].
  apply Rle_trans with (bpow radix2 (-10)); [apply bpow_le; lia|]. change (bpow radix2 (-10)) with (/ IZR 1024). lra.
Qed.
Lemma rnd64_0 : rnd64 0 = 0. Proof. apply round_0. apply valid_rnd_N. Qed.
Lemma rnd64_1 : rnd64 1 = 1.
Proof.
  apply round_generic; [apply valid_rnd_N|]. apply generic_format_FLT. exists (Float radix2 1 0); [unfold F2R; cbn; ring|cbn; lia|cbn; lia].
Qed.
Lemma half_ulp y : Rabs y <= 1 -> Rabs (rnd64 y - y) <= u64.
Proof.
  intros H. assert (V : Valid_exp (FLT_exp (-1074) 53)) by (apply FLT_exp_valid; red; lia). pose proof (error_le_half_ulp radix2 (FLT_exp (-1074) 53) (fun z => negb (Z.even z)) y) as E.
  assert (U : ulp radix2 (FLT_exp (-1074) 53) y <= ulp radix2 (FLT_exp (-1074) 53) 1) by (apply ulp_le; [exact V|apply FLT_exp_monotone|rewrite (Rabs_right 1) by lra; exact H]).
  assert (U1 : ulp radix2 (FLT_exp (-1074) 53) 1 = 2 * u64).
  { change 1 with (bpow radix2 0). rewrite ulp_bpow. unfold u64. change (FLT_exp (-1074) 53 (0 + 1)) with (1 + -53)%Z. rewrite bpow_plus. reflexivity. }
  unfold rnd64. lra.
Qed.
(** adding one rounded product to a partial sum *)
Lemma sum_step s X x al be : 0 <= al <= 1 / 100 -> 0 <= be -> 0 <= X -> Rabs s <= X -> forall s', Rabs (s' - s) <= al * X + be ->
  Rabs (rnd64 (s' + rnd64 x) - (s + x)) <= (al + u64 + al * u64) * X + (2 * u64 + u64 * u64) * Rabs x + (be + be * u64 + 2 * eta64 + u64 * eta64).
Proof.
  intros Al Be HX Hs s' Hs'. pose proof u64_pos as U0. pose proof eta64_pos as E0. pose proof (rnd64_err x) as Rx. pose proof (rnd64_err (s' + rnd64 x)) as Ry.
  pose proof (abs_tri _ _ _ Hs') as A1. pose proof (abs_tri _ _ _ Rx) as A2. pose proof (Rabs_triang s' (rnd64 x)) as A3.
  assert (M : u64 * Rabs (s' + rnd64 x) <= u64 * (X + (al * X + be) + (Rabs x + (u64 * Rabs x + eta64)))) by (apply Rmult_le_compat_l; lra).
  assert (Q : Rabs (s' + rnd64 x - (s + x)) <= (al * X + be) + (u64 * Rabs x + eta64)).
  { replace (s' + rnd64 x - (s + x)) with ((s' - s) + (rnd64 x - x)) by ring. eapply Rle_trans; [apply Rabs_triang|]. lra. }
  eapply Rle_trans; [eapply abs3; [exact Ry|exact Q]|]. lra.
Qed.
Lemma sum_err x0 x1 x2 x3 : Rabs (rnd64 (rnd64 (rnd64 (rnd64 x0 + rnd64 x1) + rnd64 x2) + rnd64 x3) - (x0 + x1 + x2 + x3)) <=
  5 * u64 * (Rabs x0 + Rabs x1 + Rabs x2 + Rabs x3) + 10 * eta64.
Proof.
  pose proof u64_pos as U0. pose proof eta64_pos as E0. pose proof u64_le as U1.
  pose proof (Rabs_pos x0). pose proof (Rabs_pos x1). pose proof (Rabs_pos x2). pose proof (Rabs_pos x3).
  assert (UU : u64 * u64 <= u64 / 1000) by (unfold Rdiv; apply Rmult_le_compat_l; lra).
  assert (UE : u64 * eta64 <= eta64 / 1000) by (unfold Rdiv; rewrite (Rmult_comm u64); apply Rmult_le_compat_l; lra).
  assert (UP : 0 <= u64 * u64) by nra. assert (EP : 0 <= u64 * eta64) by nra.
  pose proof (sum_step x0 (Rabs x0) x1 u64 eta64 ltac:(lra) ltac:(lra) ltac:(lra) ltac:(lra) (rnd64 x0) (rnd64_err x0)) as S1.
  set (X1 := Rabs x0 + Rabs x1). assert (B1 : Rabs (x0 + x1) <= X1) by apply Rabs_triang. assert (P1 : 0 <= X1) by (unfold X1; lra).
  assert (S1' : Rabs (rnd64 (rnd64 x0 + rnd64 x1) - (x0 + x1)) <= (2.1 * u64) * X1 + 3.1 * eta64).
  { eapply Rle_trans; [exact S1|]. unfold X1.
    assert ((u64 + u64 + u64 * u64) * Rabs x0 <= (2.1 * u64) * Rabs x0) by (apply Rmult_le_compat_r; lra).
    assert ((2 * u64 + u64 * u64) * Rabs x1 <= (2.1 * u64) * Rabs x1) by (apply Rmult_le_compat_r; lra). lra. }
  pose proof (sum_step (x0 + x1) X1 x2 (2.1 * u64) (3.1 * eta64) ltac:(lra) ltac:(lra) P1 B1 _ S1') as S2.
  set (X2 := X1 + Rabs x2). assert (B2 : Rabs (x0 + x1 + x2) <= X2) by (unfold X2; pose proof (Rabs_triang (x0 + x1) x2); lra). assert (P2 : 0 <= X2) by (unfold X2; lra).
  assert (S2' : Rabs (rnd64 (rnd64 (rnd64 x0 + rnd64 x1) + rnd64 x2) - (x0 + x1 + x2)) <= (3.2 * u64) * X2 + 5.3 * eta64).
  { eapply Rle_trans; [exact S2|]. unfold X2.
    assert ((2.1 * u64 + u64 + 2.1 * u64 * u64) * X1 <= (3.2 * u64) * X1) by (apply Rmult_le_compat_r; lra).
    assert ((2 * u64 + u64 * u64) * Rabs x2 <= (3.2 * u64) * Rabs x2) by (apply Rmult_le_compat_r; lra). lra. }
  pose proof (sum_step (x0 + x1 + x2) X2 x3 (3.2 * u64) (5.3 * eta64) ltac:(lra) ltac:(lra) P2 B2 _ S2') as S3.
  eapply Rle_trans; [exact S3|]. 
  assert ((3.2 * u64 + u64 + 3.2 * u64 * u64) * X2 <= (5 * u64) * X2) by (apply Rmult_le_compat_r; lra).
  assert ((2 * u64 + u64 * u64) * Rabs x3 <= (5 * u64) * Rabs x3) by (apply Rmult_le_compat_r; lra). unfold X2, X1 in *. lra.
Qed.
Lemma double_ok : arith_ok double u64 eta64 (5 * u64) (10 * eta64).
Proof.
  pose proof u64_pos as U0. pose proof eta64_pos as E0. pose proof u64_le as U1. pose proof eta64_le as E1.
  constructor.
  - exact rnd64_err.
  - intros x. apply half_ulp. apply Rabs_le, SIN_bound.
  - intros x. apply half_ulp. apply Rabs_le, COS_bound.
  - intros a0 a1 a2 a3 b0 b1 b2 b3. cbn [double fdot]. apply sum_err; lra.
  - intros b0 b1 b2. cbn [double fdot]. rewrite !Rmult_0_l, Rmult_0_r. repeat (rewrite rnd64_0 || rewrite Rplus_0_l). reflexivity.
  - intros b0 b1 b2. cbn [double fdot]. rewrite !Rmult_0_l, Rmult_1_r. repeat (rewrite rnd64_0 || rewrite Rplus_0_l). rewrite !rnd64_1. reflexivity.
Qed.
(** ** The Kuka in double precision *)
Lemma eye_sane P : 0 <= P -> sane P eye4.
Proof.
  intros HP. assert (N : forall x y z, x * x + y * y + z * z = 1 -> len (V3 x y z) <= 3 / 2). { intros x y z H. unfold len, norm2, vdot. cbn. rewrite H, sqrt_1. lra. }
  unfold sane, eye4, mid, row0, row1, row2, v0. cbn. rewrite Rabs_R0. repeat split; auto; apply N; ring.
Qed.
Lemma like_span : forall ls ls' q, map dhjt ls = map dhjt ls' -> span ls q = span ls' q.
Proof.
  induction ls as [|l ls IH]; intros [|l' ls'] q H; try discriminate; auto. cbn [map] in H. injection H as H1 H2 H3. destruct q as [|qi q]; auto. cbn [span]. rewrite (IH _ q H3), H1, H2. reflexivity.
Qed.
Lemma like_joints_ok r r0 : like r r0 -> joints_ok r0 -> joints_ok r.
Proof.
  intros [_ H] J. unfold joints_ok in *. revert H. generalize (r_links r). induction J as [|l0 ls0 Jl Js IH]; intros [|l ls] H; try discriminate; auto.
  cbn [map] in H. injection H as H1 H2 H3. constructor; [congruence|auto].
Qed.
Lemma close_le e f e' f' T T' : e <= e' -> f <= f' -> close e f T T' -> close e' f' T T'.
Proof. intros He Hf ((a & b & c & d & i & j & k & l & m) & (x & y & z) & C3). unfold close. repeat split; try apply C3; lra. Qed.
Lemma rot_bound64 n : (n <= 7)%nat -> rot_bound u64 eta64 (5 * u64) (10 * eta64) n <= 1.6e-13.
Proof.
  intros H. apply le_INR in H. cbn [INR] in H. pose proof u64_pos. pose proof eta64_pos. pose proof u64_le. pose proof eta64_le. unfold rot_bound, kap.
  assert (K : INR n * (12 * (12 * u64 + eta64) + 7 * (5 * u64) + 3 * (10 * eta64)) <= 7 * (12 * (12 * u64 + eta64) + 7 * (5 * u64) + 3 * (10 * eta64))) by (apply Rmult_le_compat_r; lra). lra.
Qed.
Lemma pos_bound64 n S P : (n <= 7)%nat -> 0 <= S -> 0 <= P -> pos_bound u64 eta64 (5 * u64) (10 * eta64) n S P <= 1.8e-13 * S + 5e-15 * (P + 3 / 2 * S + 2).
Proof.
  intros H HS HP. pose proof (rot_bound64 n H) as E. apply le_INR in H. cbn [INR] in H. pose proof u64_pos as U0. pose proof eta64_pos as T0. pose proof u64_le as U1. pose proof eta64_le as T1. unfold pos_bound.
  set (E0 := rot_bound _ _ _ _ _) in *. pose proof (pos_INR n) as N0.
  assert (A1 : (E0 + 32 * u64 + 5 * u64 * (2 + 32 * u64)) * S <= 1.8e-13 * S).
  { apply Rmult_le_compat_r; auto. assert (5 * u64 * (32 * u64) <= 5 * u64 * 1) by (apply Rmult_le_compat_l; lra). lra. }
  assert (A2 : 5 * u64 * (12 * eta64 + (P + 3 / 2 * S + 1)) <= 5 * u64 * (P + 3 / 2 * S + 1.1)) by (apply Rmult_le_compat_l; lra).
  assert (A3 : u64 * (P + 3 / 2 * S + 1.1) <= 1.2e-16 * (P + 3 / 2 * S + 1.1)) by (apply Rmult_le_compat_r; lra).
  assert (A5 : 0 <= 12 * eta64 + 5 * u64 * (12 * eta64 + (P + 3 / 2 * S + 1)) + 10 * eta64) by (pose proof (Rmult_le_pos (5 * u64) (12 * eta64 + (P + 3 / 2 * S + 1)) ltac:(lra) ltac:(lra)); lra).
  assert (A4 : INR n * (12 * eta64 + 5 * u64 * (12 * eta64 + (P + 3 / 2 * S + 1)) + 10 * eta64) <= 7 * (12 * eta64 + 5 * u64 * (12 * eta64 + (P + 3 / 2 * S + 1)) + 10 * eta64)) by (apply Rmult_le_compat_r; lra).
  assert (A6 : u64 * P <= 1.2e-16 * P) by (apply Rmult_le_compat_r; lra). lra.
Qed.
(** any arm of at most seven joints, without a tool, in double precision *)
Lemma ffk_close64 r r' q q' P : good r -> joints_ok r -> (ndof r <= 7)%nat -> sane P (r_tfb r) -> r_tool r = None -> robot_near u64 eta64 r r' -> joints_near u64 eta64 (r_links r) q q' ->
  let S := span (r_links r) q in P <= 1e6 -> S <= 1e6 ->
  exists T T', snd (fk r q) = Ok T /\ snd (ffk double r' q') = Ok T' /\ close 1.6e-13 (1.8e-13 * S + 5e-15 * (P + 3 / 2 * S + 2)) T T'.
Proof.
  intros G J N Sn Tl NR Nq S HP HS. pose proof u64_pos as U0. pose proof eta64_pos as T0. pose proof u64_le as U1. pose proof eta64_le as T1.
  assert (P0 : 0 <= P). { destruct Sn as (_ & (a & _) & _). pose proof (Rabs_pos (vx (pos (r_tfb r)))). lra. }
  assert (S0 : 0 <= S). { unfold S. clear. generalize (r_links r). intros ls. revert q. induction ls as [|l ls IH]; intros [|qi q]; cbn; try lra. pose proof (IH q). pose proof (off_nonneg l qi). unfold off in *. lra. }
  pose proof (rot_bound64 (ndof r) N) as E. pose proof (pos_bound64 (ndof r) S P N S0 P0) as F.
  destruct (ffk_close double u64 eta64 (5 * u64) (10 * eta64) double_ok ltac:(lra) ltac:(lra) ltac:(lra) ltac:(lra) ltac:(lra) r r' q q' P G J Sn) as [(T & T' & H1 & H2 & H3) _]; auto.
  - unfold tool_ok. rewrite Tl. exact Logic.I.
  - lra.
  - fold S. lra.
  - exists T, T'. split; [exact H1|]. split; [exact H2|]. rewrite Tl in H3. revert H3. apply close_le; auto.
Qed.
Lemma kuka_close64 r r' q q' : like r (Kuka 0.18 0.6 0.62 0.115) -> r_tfb r = eye4 -> r_tool r = None -> robot_near u64 eta64 r r' -> joints_near u64 eta64 (r_links r) q q' ->
  exists T T', snd (fk r q) = Ok T /\ snd (ffk double r' q') = Ok T' /\ close 2e-13 3e-13 T T'.
Proof.
  intros Lk B Tl NR Nq.
  assert (L : length q = 6%nat).
  { assert (K : length q = length (r_links r)) by (clear - Nq; induction Nq; cbn; auto). rewrite K. destruct Lk as [_ E]. apply (f_equal (@length _)) in E. rewrite !map_length in E. exact E. }
  assert (S : span (r_links r) q = 1.515).
  { rewrite (like_span _ _ q (proj2 Lk)). do 6 (destruct q as [|? q]; [discriminate|]). destruct q; [|discriminate]. cbn. rewrite !Rabs_R0. rewrite !Rabs_right by lra. lra. }
  destruct (ffk_close64 r r' q q' 0 (proj1 Lk)) as (T & T' & H1 & H2 & H3); auto.
  - apply (like_joints_ok _ _ Lk). repeat constructor; discriminate.
  - unfold ndof. destruct Lk as [_ E]. apply (f_equal (@length _)) in E. rewrite !map_length in E. rewrite E. cbn. lia.
  - rewrite B. apply eye_sane. lra.
  - lra.
  - rewrite S. lra.
  - exists T, T'. split; [exact H1|]. split; [exact H2|]. revert H3. apply close_le; [lra|rewrite S; lra].
Qed.
(** ** Rounding the numbers of a robot *)
Definition round_link (l : link) : link :=
  new_link (DH (rnd64 (da (l_dh l))) (rnd64 (dalpha (l_dh l))) (rnd64 (dd (l_dh l))) (rnd64 (dtheta (l_dh l)))) (l_jt l) (l_geom l).
Definition round_frame (T : mat4) : mat4 :=
  M4 (M3 (rnd64 (m00 (rot T))) (rnd64 (m01 (rot T))) (rnd64 (m02 (rot T))) (rnd64 (m10 (rot T))) (rnd64 (m11 (rot T))) (rnd64 (m12 (rot T)))
         (rnd64 (m20 (rot T))) (rnd64 (m21 (rot T))) (rnd64 (m22 (rot T)))) (V3 (rnd64 (vx (pos T))) (rnd64 (vy (pos T))) (rnd64 (vz (pos T)))) (brow T) (bww T).
Definition round_robot (r : robot) : robot :=
  Rb (map round_link (r_links r)) (r_limits r) (r_base r) (option_map (fun t => (fst t, round_frame (snd t))) (r_tool r)) (round_frame (r_tfb r)) (r_mat r) (r_self r) (r_prio r).
Lemma rnd64_angle x : Rabs x <= 3.9 -> Rabs (rnd64 x - x) <= 4 * u64.
Proof.
  intros H. pose proof u64_pos. pose proof eta64_le. pose proof (rnd64_err x). assert (u64 * Rabs x <= u64 * 3.9) by (apply Rmult_le_compat_l; lra). lra.
Qed.
Lemma round_robot_near r : Forall (fun l => Rabs (dalpha (l_dh l)) <= 3.9 /\ Rabs (dtheta (l_dh l)) <= 3.9) (r_links r) -> robot_near u64 eta64 r (round_robot r).
Proof.
  intros H. assert (FN : forall T, frame_near u64 eta64 T (round_frame T)) by (intros T; unfold frame_near, round_frame, rd; cbn [rot pos brow bww vx vy vz m00 m01 m02 m10 m11 m12 m20 m21 m22]; repeat split; apply rnd64_err).
  constructor.
  - cbn [round_robot r_links]. induction H as [|l ls [Ha Ht] Hs IH]; cbn [map]; constructor; auto. unfold link_near, round_link, rd. cbn [new_link l_dh l_jt l_T da dd dalpha dtheta].
    split; [apply new_link_clean|]. split; [reflexivity|]. repeat split; try apply rnd64_err; apply rnd64_angle; auto.
  - apply FN.
  - cbn [round_robot r_tool]. destruct (r_tool r) as [[c tf]|]; cbn [option_map fst snd]; auto.
Qed.
Lemma round_joints_near ls q : length q = length ls -> Forall (fun x => Rabs x <= 3.9) q -> joints_near u64 eta64 ls q (map rnd64 q).
Proof.
  revert q. induction ls as [|l ls IH]; intros [|qi q] L H; try discriminate; cbn [map]; constructor; inversion H as [|? ? Hq Hs]; subst.
  - unfold joint_near, rd. destruct (l_jt l); try apply rnd64_angle; auto. apply rnd64_err.
  - apply IH; auto.
Qed.
