(** * AnthropomorphicArm.ik in floating point: error of the position reached. *)
From Coq Require Import Reals Lra Lia Psatz List Bool Arith ZArith.
From Verif Require Import PyBase Mat Util UtilProofs Geometry GeometryProofs Robot RobotProofs RobotForms Ik IkProofs KukaProofs RailProofs Motion Margin FloatFk FloatFkProofs FloatIk FloatIkProofs FloatIkArm FloatIkKuka FloatIkDouble FloatAnthro.
Import ListNotations.
Local Open Scope R_scope.

(** ** A shoulder that points along a slightly wrong direction, for an arm at least 1.19e-3 long *)
Lemma planar_long A B r z D' N' ps k dl : 1.42e-6 <= A ^ 2 + B ^ 2 -> 1.42e-6 <= r ^ 2 + z ^ 2 -> Rabs (A ^ 2 + B ^ 2 - (r ^ 2 + z ^ 2)) <= dl -> 0 <= k <= 5e-11 ->
  Rabs (D' - (r * A + z * B)) <= k -> Rabs (N' - (z * A - r * B)) <= k ->
  D' = sqrt (D' ^ 2 + N' ^ 2) * cos ps -> N' = sqrt (D' ^ 2 + N' ^ 2) * sin ps ->
  Rabs (A * cos ps - B * sin ps - r) <= 421 * dl + 3500 * k /\ Rabs (A * sin ps + B * cos ps - z) <= 421 * dl + 3500 * k.
Proof.
  intros HV HW' HW Hk HD HN EC ES. set (D := r * A + z * B) in *. set (N := z * A - r * B) in *. set (rho := sqrt (D' ^ 2 + N' ^ 2)) in *.
  set (V := sqrt (A ^ 2 + B ^ 2)). set (W := sqrt (r ^ 2 + z ^ 2)).
  assert (VV : V ^ 2 = A ^ 2 + B ^ 2) by apply sqrt_sum_sq. assert (WW : W ^ 2 = r ^ 2 + z ^ 2) by apply sqrt_sum_sq.
  assert (V0 : 0 <= V) by apply sqrt_pos. assert (W0 : 0 <= W) by apply sqrt_pos. rewrite <- VV, <- WW in HW. rewrite <- VV in HV. rewrite <- WW in HW'.
  assert (V1 : 1.19e-3 <= V) by (apply Rsqr_incr_0_var; [unfold Rsqr; lra|lra]). assert (W1 : 1.19e-3 <= W) by (apply Rsqr_incr_0_var; [unfold Rsqr; lra|lra]).
  assert (D0 : 0 <= dl) by (eapply Rle_trans; [apply Rabs_pos|exact HW]).
  destruct (hyp_abs A B) as [BA BB]. fold V in BA, BB. destruct (hyp_abs r z) as [Br Bz]. fold W in Br, Bz.
  assert (VW : Rabs (V - W) <= 420.5 * dl).
  { assert (F : Rabs (V - W) * (V + W) <= dl). { rewrite <- (abs_ge (V + W)) by lra. rewrite <- Rabs_mult. replace ((V - W) * (V + W)) with (V ^ 2 - W ^ 2) by ring. auto. }
    pose proof (Rabs_pos (V - W)). assert (Rabs (V - W) * 2.38e-3 <= Rabs (V - W) * (V + W)) by (apply Rmult_le_compat_l; lra). lra. }
  assert (RV : Rabs (rho - V * W) <= 2 * k).
  { replace (V * W) with (sqrt (D ^ 2 + N ^ 2)); [apply hyp_lip; auto|]. rewrite <- (sqrt_pow2 (V * W)) by (apply Rmult_le_pos; lra). f_equal. rewrite Rpow_mult_distr, VV, WW. unfold D, N. ring. }
  set (m := V * W) in *. assert (P0 : 1.41e-6 <= m).
  { unfold m. apply Rle_trans with (1.19e-3 * 1.19e-3); [lra|]. apply Rmult_le_compat; lra. }
  pose proof RV as RV'. apply Rabs_le_inv in RV'. assert (Rp : 0.9999 * m <= rho) by lra.
  assert (mV : 1.19e-3 * V <= m) by (unfold m; rewrite Rmult_comm; apply Rmult_le_compat_l; lra). assert (mW : 1.19e-3 * W <= m) by (unfold m; apply Rmult_le_compat_r; lra).
  assert (fin : forall t e1 x, rho * t = e1 + x * V * (V - W) + x * (m - rho) -> Rabs e1 <= 2 * (V * k) -> Rabs x <= W -> Rabs t <= 421 * dl + 3500 * k).
  { intros t e1 x Et He1 Hx.
    assert (M : Rabs (rho * t) <= 2 * (V * k) + m * (420.5 * dl) + W * (2 * k)).
    { rewrite Et. eapply Rle_trans; [apply Rabs_triang|]. apply Rplus_le_compat; [eapply Rle_trans; [apply Rabs_triang|]; apply Rplus_le_compat; [auto|]|].
      - apply abs_mul_le; [|auto]. rewrite Rabs_mult, (abs_ge V) by lra. unfold m. rewrite (Rmult_comm V W). apply Rmult_le_compat_r; lra.
      - apply abs_mul_le; [lra|]. replace (m - rho) with (- (rho - m)) by ring. rewrite Rabs_Ropp. auto. }
    rewrite Rabs_mult, (abs_ge rho) in M by lra. apply Rmult_le_reg_l with rho; [lra|].
    assert (K1 : 1.19e-3 * V * k <= m * k) by (apply Rmult_le_compat_r; lra). assert (K2 : 1.19e-3 * W * k <= m * k) by (apply Rmult_le_compat_r; lra).
    assert (K3 : 0.9999 * m * (421 * dl + 3500 * k) <= rho * (421 * dl + 3500 * k)) by (apply Rmult_le_compat_r; lra).
    assert (K4 : 0 <= m * dl) by (apply Rmult_le_pos; lra). assert (K5 : 0 <= m * k) by (apply Rmult_le_pos; lra). lra. }
  assert (KE : forall a b, Rabs a <= V -> Rabs b <= V -> Rabs (a * (D' - D) + b * (N' - N)) <= 2 * (V * k)).
  { intros a b Ha Hb. eapply Rle_trans; [apply Rabs_triang|]. replace (2 * (V * k)) with (V * k + V * k) by ring. apply Rplus_le_compat; apply abs_mul_le; lra. }
  split.
  - apply (fin _ (A * (D' - D) + (- B) * (N' - N)) r); auto; [|apply KE; [auto|rewrite Rabs_Ropp; auto]].
    transitivity (A * (rho * cos ps) - B * (rho * sin ps) - rho * r); [ring|]. rewrite <- EC, <- ES.
    transitivity (A * (D' - D) + - B * (N' - N) + r * V ^ 2 - rho * r); [rewrite VV; unfold D, N; ring|unfold m; ring].
  - apply (fin _ (B * (D' - D) + A * (N' - N)) z); auto.
    transitivity (A * (rho * sin ps) + B * (rho * cos ps) - rho * z); [ring|]. rewrite <- EC, <- ES.
    transitivity (B * (D' - D) + A * (N' - N) + z * V ^ 2 - rho * z); [rewrite VV; unfold D, N; ring|unfold m; ring].
Qed.
(** a folded arm: whatever the shoulder angle, both ends are near the shoulder *)
Lemma planar_short A B r z ps v w : A ^ 2 + B ^ 2 <= v ^ 2 -> r ^ 2 + z ^ 2 <= w ^ 2 -> 0 <= v -> 0 <= w ->
  Rabs (A * cos ps - B * sin ps - r) <= v + w /\ Rabs (A * sin ps + B * cos ps - z) <= v + w.
Proof.
  intros HV HW v0 w0. pose proof (sin2_cos2 ps) as T. unfold Rsqr in T.
  assert (K : forall x, x ^ 2 <= v ^ 2 -> Rabs x <= v) by (intros x H; rewrite <- (sqrt_pow2 v), <- sqrt_Rsqr_abs by auto; apply sqrt_le_1_alt; unfold Rsqr; lra).
  assert (K' : forall x, x ^ 2 <= w ^ 2 -> Rabs x <= w) by (intros x H; rewrite <- (sqrt_pow2 w), <- sqrt_Rsqr_abs by auto; apply sqrt_le_1_alt; unfold Rsqr; lra).
  assert (E : (A * cos ps - B * sin ps) ^ 2 + (A * sin ps + B * cos ps) ^ 2 = A ^ 2 + B ^ 2).
  { transitivity ((sin ps * sin ps + cos ps * cos ps) * (A ^ 2 + B ^ 2)); [ring|rewrite T; ring]. }
  pose proof (pow2_ge_0 (A * cos ps - B * sin ps)). pose proof (pow2_ge_0 (A * sin ps + B * cos ps)). pose proof (pow2_ge_0 r). pose proof (pow2_ge_0 z).
  split; unfold Rminus at 1; (eapply Rle_trans; [apply Rabs_triang|]); rewrite Rabs_Ropp; apply Rplus_le_compat; [apply K|apply K'|apply K|apply K']; lra.
Qed.
(** from the plane of the arm to space *)
Lemma arm_plane x y z r th ps ph E : x = r * cos th -> y = r * sin th -> 0 <= E ->
  Rabs (reach_r 1 1 ps ph - r) <= E -> Rabs (reach_z 1 1 ps ph - z) <= E -> len (vsub (arm_pos 0 1 1 th ps ph) (V3 x y z)) <= 1.42 * E.
Proof.
  intros Hx Hy E0 Q1 Q2. apply abs_sq in Q1. apply abs_sq in Q2. rewrite abs_ge in Q1 by apply pow2_ge_0. rewrite abs_ge in Q2 by apply pow2_ge_0.
  unfold len. rewrite <- (sqrt_pow2 (1.42 * E)) by lra. apply sqrt_le_1_alt. apply Rle_trans with ((reach_r 1 1 ps ph - r) ^ 2 + (reach_z 1 1 ps ph - z) ^ 2); [|nra].
  right. unfold norm2, arm_pos, vdot, vsub. cbn [vx vy vz]. rewrite Hx, Hy. pose proof (sin2_cos2 th) as T1. unfold Rsqr in T1.
  transitivity ((sin th * sin th + cos th * cos th) * (reach_r 1 1 ps ph - r) ^ 2 + (reach_z 1 1 ps ph - z) ^ 2); [ring|rewrite T1; ring].
Qed.
(** the position reached from angles that are slightly wrong *)
Lemma arm_pos_lip q1 q2 q3 th ps ph d : Rabs (q1 - th) <= d -> Rabs (q2 - ps) <= d -> Rabs (q3 - ph) <= d ->
  len (vsub (arm_pos 0 1 1 q1 q2 q3) (arm_pos 0 1 1 th ps ph)) <= 13 * d.
Proof.
  intros H1 H2 H3. assert (H23 : Rabs (q2 + q3 - (ps + ph)) <= 2 * d) by (replace (q2 + q3 - (ps + ph)) with ((q2 - ps) + (q3 - ph)) by ring; eapply Rle_trans; [apply Rabs_triang|lra]).
  pose proof (cos_lip q1 th). pose proof (sin_lip q1 th). pose proof (cos_lip q2 ps) as C2. pose proof (sin_lip q2 ps) as S2. pose proof (cos_lip (q2 + q3) (ps + ph)) as C3. pose proof (sin_lip (q2 + q3) (ps + ph)) as S3.
  assert (Rr : Rabs (reach_r 1 1 q2 q3 - reach_r 1 1 ps ph) <= 3 * d).
  { unfold reach_r. replace (1 * cos q2 + 1 * cos (q2 + q3) - (1 * cos ps + 1 * cos (ps + ph))) with ((cos q2 - cos ps) + (cos (q2 + q3) - cos (ps + ph))) by ring. eapply Rle_trans; [apply Rabs_triang|lra]. }
  assert (Rz : Rabs (reach_z 1 1 q2 q3 - reach_z 1 1 ps ph) <= 3 * d).
  { unfold reach_z. replace (1 * sin q2 + 1 * sin (q2 + q3) - (1 * sin ps + 1 * sin (ps + ph))) with ((sin q2 - sin ps) + (sin (q2 + q3) - sin (ps + ph))) by ring. eapply Rle_trans; [apply Rabs_triang|lra]. }
  assert (BR : Rabs (reach_r 1 1 ps ph) <= 2).
  { unfold reach_r. destruct (COS_bound ps), (COS_bound (ps + ph)). apply Rabs_le. lra. }
  assert (PP : forall f f', Rabs (f - f') <= d -> Rabs f <= 1 -> Rabs (f * (0 + reach_r 1 1 q2 q3) - f' * (0 + reach_r 1 1 ps ph)) <= 5 * d).
  { intros f f' Hf Bf. replace (f * (0 + reach_r 1 1 q2 q3) - f' * (0 + reach_r 1 1 ps ph)) with (f * (reach_r 1 1 q2 q3 - reach_r 1 1 ps ph) + (f - f') * reach_r 1 1 ps ph) by ring.
    eapply Rle_trans; [apply Rabs_triang|]. replace (5 * d) with (1 * (3 * d) + d * 2) by ring. apply Rplus_le_compat; apply abs_mul_le; auto. }
  destruct (abs_1 q1) as [B1 B2].
  eapply Rle_trans; [apply len_abs_le|]. unfold arm_pos, vsub. cbn [vx vy vz]. pose proof (PP (cos q1) (cos th) ltac:(lra) B1). pose proof (PP (sin q1) (sin th) ltac:(lra) B2). lra.
Qed.

Lemma arm_pos_norm q1 q2 q3 : norm2 (arm_pos 0 1 1 q1 q2 q3) = 2 + 2 * cos q3.
Proof.
  pose proof (reach_cos 1 1 q2 q3) as RC. pose proof (sin2_cos2 q1) as T1. unfold Rsqr in T1. unfold norm2, vdot, arm_pos. cbn [vx vy vz].
  transitivity ((sin q1 * sin q1 + cos q1 * cos q1) * reach_r 1 1 q2 q3 ^ 2 + reach_z 1 1 q2 q3 ^ 2); [ring|]. rewrite T1, Rmult_1_l, RC. ring.
Qed.

Section Anthro.
Context (A : arith_ik) (u eta g h : R) (OK : ik_ok A u eta g h).
Context (Hu : 0 < u <= 1e-13) (He : 0 <= eta <= u ^ 2) (Hg : 0 <= g <= 8 * u) (Hh : 0 <= h <= u).
Local Notation rn := (rnd (ar A)).
Local Notation mule := (mul_e A u eta g h OK Hu He).
Local Notation adde := (add_e A u eta g h OK Hu He).
Local Notation sube := (sub_e A u eta g h OK Hu He).
Local Notation sqe := (sq_e A u eta g h OK Hu He).

Context (l2 l3 : R) (E2 : Rabs (l2 - 1) <= 2 * u) (E3 : Rabs (l3 - 1) <= 2 * u).

(** ** The cosine of the elbow *)
Lemma anthro_c3_e x y z : Rabs x <= 4 -> Rabs y <= 4 -> Rabs z <= 4 ->
  exists c, rdiv (rn (rn (rn (rn (fsq A x + fsq A y) + fsq A z) - fsq A l2) - fsq A l3)) (rn (rn (2 * l2) * l3)) = Ok c /\
    Rabs (rn c - (x ^ 2 + y ^ 2 + z ^ 2 - 2) / 2) <= 3500 * u.
Proof.
  intros Bx By Bz. pose proof (exact_e u) as X0.
  assert (Q : forall v, Rabs v <= 4 -> Rabs (fsq A v - v ^ 2) <= 51 * u /\ Rabs (v ^ 2) <= 16).
  { intros v Bv. split; [apply (sqe v v 0 4); auto; lra|]. apply abs_sq in Bv. lra. }
  destruct (Q x Bx) as [Qx Qx']. destruct (Q y By) as [Qy Qy']. destruct (Q z Bz) as [Qz Qz'].
  assert (Q1 : forall l, Rabs (l - 1) <= 2 * u -> Rabs (fsq A l - 1) <= 15 * u). { intros l Hl. replace (fsq A l - 1) with (fsq A l - 1 ^ 2) by ring. apply (sqe 1 l 2 1); auto; try lra. apply abs_const; lra. }
  pose proof (Q1 l2 E2) as Q2. pose proof (Q1 l3 E3) as Q3. assert (B0 : Rabs 1 <= 1) by (apply abs_const; lra). assert (B2' : Rabs 2 <= 2) by (apply abs_const; lra).
  assert (S1 : Rabs (rn (fsq A x + fsq A y) - (x ^ 2 + y ^ 2)) <= 137 * u) by (apply (adde _ _ _ _ 51 51 16 16); bb).
  assert (B1 : Rabs (x ^ 2 + y ^ 2) <= 32) by (eapply Rle_trans; [apply Rabs_triang|lra]).
  assert (S2 : Rabs (rn (rn (fsq A x + fsq A y) + fsq A z) - (x ^ 2 + y ^ 2 + z ^ 2)) <= 239 * u) by (apply (adde _ _ _ _ 137 51 32 16); bb).
  assert (B2 : Rabs (x ^ 2 + y ^ 2 + z ^ 2) <= 48) by (eapply Rle_trans; [apply Rabs_triang|lra]).
  assert (S3 : Rabs (rn (rn (rn (fsq A x + fsq A y) + fsq A z) - fsq A l2) - (x ^ 2 + y ^ 2 + z ^ 2 - 1)) <= 306 * u) by (apply (sube _ _ _ _ 239 15 48 1); bb).
  assert (B3 : Rabs (x ^ 2 + y ^ 2 + z ^ 2 - 1) <= 49) by (apply Rabs_le_inv in B2; apply Rabs_le; lra).
  assert (S4 : Rabs (rn (rn (rn (rn (fsq A x + fsq A y) + fsq A z) - fsq A l2) - fsq A l3) - (x ^ 2 + y ^ 2 + z ^ 2 - 1 - 1)) <= 374 * u) by (apply (sube _ _ _ _ 306 15 49 1); bb).
  assert (D1 : Rabs (rn (2 * l2) - 2 * 1) <= 11 * u) by (apply (mule _ _ _ _ 0 2 2 1); try bb; apply X0).
  assert (D2 : Rabs (rn (rn (2 * l2) * l3) - 2 * 1 * 1) <= 33 * u) by (apply (mule _ _ _ _ 11 2 2 1); try bb; rewrite Rmult_1_r; auto).
  set (top' := rn (rn (rn (rn (fsq A x + fsq A y) + fsq A z) - fsq A l2) - fsq A l3)) in *. set (den := rn (rn (2 * l2) * l3)) in *. set (n2 := x ^ 2 + y ^ 2 + z ^ 2) in *.
  assert (Dd : 1.9 <= den <= 2.1) by (apply Rabs_le_inv in D2; lra).
  unfold rdiv. destruct (Req_EM_T den 0) as [Z|_]; [lra|]. eexists. split; [reflexivity|].
  set (cc := (n2 - 2) / 2). assert (BC : Rabs cc <= 25) by (unfold cc; apply Rabs_le_inv in B2; apply Rabs_le; lra).
  assert (QQ : Rabs (top' / den - cc) <= 640 * u).
  { replace (top' / den - cc) with (((top' - (n2 - 1 - 1)) - cc * (den - 2 * 1 * 1)) / den) by (unfold cc; field; lra).
    eapply Rle_trans; [apply (abs_div_le _ _ (374 * u + 25 * (33 * u)) 1.9); [|lra]|].
    - unfold Rminus at 1. eapply Rle_trans; [apply Rabs_triang|]. rewrite Rabs_Ropp. apply Rplus_le_compat; [auto|]. apply abs_mul_le; auto.
    - apply Rmult_le_reg_r with 1.9; [lra|]. unfold Rdiv. rewrite Rmult_assoc, Rinv_l by lra. lra. }
  pose proof (abs_le_add _ _ _ _ QQ BC) as BQ. assert (BQ' : Rabs (top' / den) <= 26) by lra.
  pose proof (rn_e A u eta g h OK Hu He _ _ BQ') as RR. eapply Rle_trans; [eapply abs3; [exact RR|exact QQ]|]. lra.
Qed.
(** as [q3_e], with the errors of the cosine and the sine themselves *)
Lemma q3_cs c3f c3 e c : 3500 * u <= e <= 1e-7 -> Rabs (c3f - c3) <= e -> felbow A c3f = Some c ->
  let s3 := fsqrt A (rn (1 - fsq A c)) in
  exists fa fb, cos fb = cos fa /\ sin fb = - sin fa /\ Rabs (fatan2 A s3 c - fa) <= 4 * u /\ Rabs (fatan2 A (- s3) c - fb) <= 4 * u /\ Rabs (c - cos fa) <= 9 * u /\ Rabs (s3 - sin fa) <= 9 * u /\
    ((Rabs (cos fa - c3) <= 2 * e /\ 1.2e-3 <= sin fa) \/ (Rabs (cos fa - c3) <= 1.3e-6 /\ Rabs (sin fa) <= u)).
Proof.
  intros He' H HE s3. pose proof (felbow_e A u eta g h OK Hu He c3f c3 e He' H) as F. rewrite HE in F. assert (TT : tol = 1e-6) by (unfold tol; lra).
  pose proof (eta_k u eta Hu He) as Ek.
  destruct F as [[-> B]|[Hc B]].
  - apply Rabs_le_inv in B. assert (C2 : c3f ^ 2 <= 1 - 1.9e-6) by nra. pose proof (pow2_ge_0 c3f) as C0.
    pose proof (io_sq _ _ _ _ _ OK c3f) as Q. assert (Q' : Rabs (fsq A c3f - c3f ^ 2) <= 3 * u) by (assert (u * c3f ^ 2 <= u * 1) by (apply Rmult_le_compat_l; lra); lra).
    assert (BW : Rabs (1 - fsq A c3f) <= 1.5) by (apply Rabs_le_inv in Q'; apply Rabs_le; lra).
    pose proof (rn_e A u eta g h OK Hu He _ _ BW) as W. set (w := rn (1 - fsq A c3f)) in *.
    assert (W' : Rabs (w - (1 - c3f ^ 2)) <= 6 * u). { eapply Rle_trans; [eapply abs3; [exact W|]|]. { replace (1 - fsq A c3f - (1 - c3f ^ 2)) with (- (fsq A c3f - c3f ^ 2)) by ring. rewrite Rabs_Ropp. exact Q'. } lra. }
    apply Rabs_le_inv in W'. assert (W0 : 0 <= w) by lra.
    pose proof (io_sqrt _ _ _ _ _ OK w W0) as Sq. fold s3 in Sq. set (p := sqrt w) in *. assert (P0 : 0 <= p) by apply sqrt_pos. assert (Pw : p * p = w) by (apply sqrt_sqrt; auto).
    assert (P1 : p <= 1.01) by (apply Rsqr_incr_0_var; [unfold Rsqr; lra|lra]). assert (P2 : 1.3e-3 <= p) by (apply Rsqr_incr_0_var; [unfold Rsqr; lra|lra]).
    assert (SP : Rabs (s3 - p) <= 1.1 * u) by (assert (u * p <= u * 1.01) by (apply Rmult_le_compat_l; lra); lra).
    assert (S2 : Rabs (s3 ^ 2 - w) <= 3 * u).
    { rewrite <- Pw. replace (s3 ^ 2 - p * p) with ((s3 - p) * (s3 + p)) by ring. eapply Rle_trans; [apply (abs_mul_le _ _ (1.1 * u) 2.1); auto|lra]. apply Rabs_le_inv in SP. apply Rabs_le. lra. }
    apply Rabs_le_inv in S2.
    destruct (two_angles A u eta g h OK Hu c3f s3 (9 * u)) as (fa & fb & T1 & T2 & T3 & T4 & T5 & T6); [lra|apply Rabs_le; lra|].
    exists fa, fb. do 6 (split; [assumption|]). left. apply Rabs_le_inv in T5. apply Rabs_le_inv in T6. apply Rabs_le_inv in H. apply Rabs_le_inv in SP. split; [apply Rabs_le; lra|lra].
  - assert (W : rn (1 - fsq A c) = 0) by (destruct (io_one _ _ _ _ _ OK); destruct Hc as [-> | ->]; auto).
    pose proof (io_sqrt _ _ _ _ _ OK 0 ltac:(lra)) as Sq. unfold s3. rewrite W. rewrite sqrt_0 in Sq. set (s := fsqrt A 0) in *. apply Rabs_le_inv in Sq.
    assert (S2 : Rabs (s ^ 2) <= u / 1000) by (apply Rabs_le; split; nra). pose proof S2 as S2'. apply Rabs_le_inv in S2'.
    assert (C2 : c ^ 2 = 1) by (destruct Hc as [-> | ->]; ring).
    destruct (two_angles A u eta g h OK Hu c s (u / 100)) as (fa & fb & T1 & T2 & T3 & T4 & T5 & T6); [lra|rewrite C2; apply Rabs_le; lra|].
    exists fa, fb. do 4 (split; [assumption|]). split; [lra|]. split; [lra|]. right. apply Rabs_le_inv in T5. apply Rabs_le_inv in T6. apply Rabs_le_inv in B. split; apply Rabs_le; lra.
Qed.

(** ** One row *)
Definition anthro_row (p : vec3) (q : list R) : Prop := exists q1 q2 q3, q = [q1; q2; q3] /\
  ((1.1e-3 <= Rabs (sin q3) /\ len (vsub (arm_pos 0 1 1 q1 q2 q3) p) <= 1.1e7 * u) \/ (Rabs (sin q3) <= 5 * u /\ len (vsub (arm_pos 0 1 1 q1 q2 q3) p) <= 2.4e-3 /\ 1 - 1.4e-6 <= Rabs ((norm2 p - 2) / 2))).
Lemma anthro_row_e x y z r q1 th q3 ph N' D' : x = r * cos th -> y = r * sin th -> Rabs (q1 - th) <= 4 * u -> Rabs (q3 - ph) <= 4 * u ->
  let c3 := (x ^ 2 + y ^ 2 + z ^ 2 - 2) / 2 in
  (Rabs (cos ph - c3) <= 7000 * u /\ 1.2e-3 <= Rabs (sin ph)) \/ (Rabs (cos ph - c3) <= 1.3e-6 /\ Rabs (sin ph) <= u) ->
  Rabs (N' - (z * (1 + cos ph) - r * sin ph)) <= 370 * u -> Rabs (D' - (r * (1 + cos ph) + z * sin ph)) <= 370 * u ->
  anthro_row (V3 x y z) [q1; fatan2 A N' D'; q3].
Proof.
  intros Hx Hy H1 H3 c3 Hc HN HD. destruct (io_atan _ _ _ _ _ OK N' D') as (ps & I1 & I2 & I3). exists q1, (fatan2 A N' D'), q3. split; [reflexivity|].
  pose proof (arm_pos_lip q1 (fatan2 A N' D') q3 th ps ph (4 * u) H1 I3 H3) as LP. pose proof (len_vsub3 (arm_pos 0 1 1 q1 (fatan2 A N' D') q3) (arm_pos 0 1 1 th ps ph) (V3 x y z)) as L3.
  pose proof (sin_lip q3 ph) as SL. pose proof (Rabs_triang_inv (sin ph) (sin ph - sin q3)) as TI. replace (sin ph - (sin ph - sin q3)) with (sin q3) in TI by ring. rewrite (Rabs_minus_sym (sin ph) (sin q3)) in TI.
  pose proof (Rabs_triang_inv (sin q3) (sin q3 - sin ph)) as TJ. pose proof (abs_tri _ _ _ (Rle_trans _ _ _ SL H3)) as TK.
  set (a := 1 + cos ph) in *. set (b := sin ph) in *. pose proof (sin2_cos2 ph) as T. unfold Rsqr in T. fold b in T. destruct (COS_bound ph) as [C1 C2].
  assert (VV : a ^ 2 + b ^ 2 = 2 + 2 * cos ph) by (unfold a; transitivity (1 + 2 * cos ph + (b * b + cos ph * cos ph)); [ring|rewrite T; ring]).
  assert (WW : r ^ 2 + z ^ 2 = 2 + 2 * c3).
  { pose proof (sin2_cos2 th) as T1. unfold Rsqr in T1. unfold c3. rewrite Hx, Hy. transitivity ((sin th * sin th + cos th * cos th) * r ^ 2 + z ^ 2); [rewrite T1; ring|field]. }
  assert (fin : forall E, 0 <= E -> Rabs (a * cos ps - b * sin ps - r) <= E -> Rabs (a * sin ps + b * cos ps - z) <= E -> len (vsub (arm_pos 0 1 1 th ps ph) (V3 x y z)) <= 1.42 * E).
  { intros E E0 P1 P2. destruct (reach_AB 1 1 ps ph) as [R1 R2]. cbv zeta in R1, R2. rewrite !Rmult_1_l in R1, R2. fold a b in R1, R2. rewrite <- R1 in P1. rewrite <- R2 in P2. apply (arm_plane x y z r); auto. }
  destruct Hc as [[Hc Hs]|[Hc Hs]].
  - left. split; [lra|]. assert (B2 : 1.44e-6 <= b * b).
    { replace (b * b) with (Rabs b * Rabs b) by (rewrite <- Rabs_mult; apply abs_ge; nra). nra. }
    pose proof Hc as Hc'. apply Rabs_le_inv in Hc'. assert (V1 : 1.44e-6 <= a ^ 2 + b ^ 2) by nra.
    destruct (planar_long a b r z D' N' ps (370 * u) (2 * (7000 * u))) as [P1 P2]; auto; [lra|lra| |lra|].
    + rewrite VV, WW. replace (2 + 2 * cos ph - (2 + 2 * c3)) with (2 * (cos ph - c3)) by ring. apply abs_mul_le; auto. apply abs_const; lra.
    + pose proof (fin _ (Rle_trans _ _ _ (Rabs_pos _) P1) P1 P2). lra.
  - right. split; [lra|]. replace ((norm2 (V3 x y z) - 2) / 2) with c3 by (unfold c3, norm2, vdot; cbn [vx vy vz]; field). pose proof Hc as Hc'. apply Rabs_le_inv in Hc'.
    assert (B2 : b * b <= 1e-13). { replace (b * b) with (Rabs b * Rabs b) by (rewrite <- Rabs_mult; apply abs_ge; nra). pose proof (Rabs_pos b). apply Rle_trans with (1e-13 * 1); [apply Rmult_le_compat; lra|lra]. }
    destruct (Rle_dec 0 (cos ph)) as [C0|C0].
    + destruct (planar_long a b r z D' N' ps (370 * u) (2 * 1.3e-6)) as [P1 P2]; auto; [lra|lra| |lra|].
      * rewrite VV, WW. replace (2 + 2 * cos ph - (2 + 2 * c3)) with (2 * (cos ph - c3)) by ring. apply abs_mul_le; auto. apply abs_const; lra.
      * pose proof (fin _ (Rle_trans _ _ _ (Rabs_pos _) P1) P1 P2). split; [lra|]. assert (C3 : cos ph * cos ph <= cos ph * 1) by (apply Rmult_le_compat_l; lra). pose proof (Rle_abs c3). lra.
    + assert (C3 : - cos ph * - cos ph <= - cos ph * 1) by (apply Rmult_le_compat_l; lra). assert (C3' : cos ph <= -1 + 1e-13) by lra.
      destruct (planar_short a b r z ps 1e-6 1.615e-3) as [P1 P2]; [lra|lra|lra|lra|]. pose proof (fin _ (Rle_trans _ _ _ (Rabs_pos _) P1) P1 P2). split; [lra|]. pose proof (Rle_abs (- c3)) as AA. rewrite Rabs_Ropp in AA. lra.
Qed.

(** ** The whole function *)
Lemma fanthro_e r T : link_a r 1 = Ok l2 -> link_a r 2 = Ok l3 -> Rabs (vx (pos T)) <= 4 -> Rabs (vy (pos T)) <= 4 -> Rabs (vz (pos T)) <= 4 ->
  (fanthro_ik A r T = Ok IkFail /\ 1 + 8e-7 < Rabs ((norm2 (pos T) - 2) / 2)) \/
  exists qs, fanthro_ik A r T = Ok (IkOk qs) /\ length qs = 4%nat /\ Forall (anthro_row (pos T)) qs.
Proof.
  intros K2 K3 Bx By Bz. rewrite <- (vec_eta (pos T)). set (x := vx (pos T)) in *. set (y := vy (pos T)) in *. set (z := vz (pos T)) in *.
  unfold fanthro_ik. rewrite K2, K3. cbn [bind]. fold x y z. destruct (anthro_c3_e x y z Bx By Bz) as (c & Ec & Hc). rewrite Ec. cbn [bind].
  set (c3 := (x ^ 2 + y ^ 2 + z ^ 2 - 2) / 2) in *. replace ((norm2 (V3 x y z) - 2) / 2) with c3 by (unfold c3, norm2, vdot; cbn [vx vy vz]; field).
  pose proof (felbow_e A u eta g h OK Hu He (rn c) c3 (3500 * u) ltac:(lra) Hc) as F. destruct (felbow A (rn c)) as [cc|] eqn:EF; [right|left; split; [reflexivity|exact F]]. clear F.
  destruct (q3_cs (rn c) c3 (3500 * u) cc ltac:(lra) Hc EF) as (fa & fb & Q1 & Q2 & Q3 & Q4 & Q5 & Q6 & Q7). set (s3 := fsqrt A (rn (1 - fsq A cc))) in *.
  destruct (io_atan _ _ _ _ _ OK y x) as (th & P1 & P2 & P3). destruct (io_atan _ _ _ _ _ OK (- y) (- x)) as (th' & N1 & N2 & N3).
  replace ((- x) ^ 2) with (x ^ 2) in * by ring. replace ((- y) ^ 2) with (y ^ 2) in * by ring.
  pose proof (hyp_e A u eta g h OK Hu He x y Bx By) as HL. set (L := sqrt (x ^ 2 + y ^ 2)) in *. set (L' := fsqrt A (rn (fsq A x + fsq A y))) in *.
  assert (L0 : 0 <= L) by apply sqrt_pos.
  assert (LB : Rabs L <= 5.7). { rewrite abs_ge by auto. apply hyp_le; [lra|]. apply abs_sq in Bx. apply abs_sq in By. rewrite abs_ge in Bx by apply pow2_ge_0. rewrite abs_ge in By by apply pow2_ge_0. lra. }
  pose proof (exact_e u) as X0. assert (B1 : Rabs 1 <= 1) by (apply abs_const; lra). destruct (abs_1 fa) as [BC BS].
  assert (M1 : Rabs (rn (l3 * cc) - 1 * cos fa) <= 18 * u) by (apply (mule _ _ _ _ 2 9 1 1); bb).
  assert (M2 : Rabs (rn (l3 * s3) - 1 * sin fa) <= 18 * u) by (apply (mule _ _ _ _ 2 9 1 1); bb).
  rewrite (Rmult_1_l (cos fa)) in M1. rewrite (Rmult_1_l (sin fa)) in M2.
  assert (M3 : Rabs (rn (l2 + rn (l3 * cc)) - (1 + cos fa)) <= 25 * u) by (apply (adde _ _ _ _ 2 18 1 1); bb).
  set (a := rn (l2 + rn (l3 * cc))) in *. set (b := rn (l3 * s3)) in *. assert (BA : Rabs (1 + cos fa) <= 2) by (destruct (COS_bound fa); apply Rabs_le; lra).
  assert (ZA : Rabs (rn (z * a) - z * (1 + cos fa)) <= 116 * u) by (apply (mule _ _ _ _ 0 25 4 2); try bb; apply X0).
  assert (ZB : Rabs (rn (z * b) - z * sin fa) <= 83 * u) by (apply (mule _ _ _ _ 0 18 4 1); try bb; apply X0).
  assert (LA : Rabs (rn (L' * a) - L * (1 + cos fa)) <= 260 * u) by (apply (mule _ _ _ _ 32 25 5.7 2); bb).
  assert (LN : Rabs (rn (- L' * a) - - L * (1 + cos fa)) <= 260 * u) by (apply (mule _ _ _ _ 32 25 5.7 2); try bb; [apply opp_e; auto|rewrite Rabs_Ropp; auto]).
  assert (Lb : Rabs (rn (L' * b) - L * sin fa) <= 181 * u) by (apply (mule _ _ _ _ 32 18 5.7 1); bb).
  pose proof (abs_mul_le _ _ _ _ Bz BA) as GA. pose proof (abs_mul_le _ _ _ _ Bz BS) as GB. pose proof (abs_mul_le _ _ _ _ LB BA) as GL. pose proof (abs_mul_le _ _ _ _ LB BS) as GS.
  assert (GN : Rabs (- L * (1 + cos fa)) <= 5.7 * 2) by (rewrite Ropp_mult_distr_l_reverse, Rabs_Ropp; auto).
  assert (HC : (Rabs (cos fa - c3) <= 7000 * u /\ 1.2e-3 <= Rabs (sin fa)) \/ (Rabs (cos fa - c3) <= 1.3e-6 /\ Rabs (sin fa) <= u)).
  { destruct Q7 as [[U1 U2]|[U1 U2]]; [left|right]; (split; [lra|]); auto. rewrite abs_ge; lra. }
  assert (HC' : (Rabs (cos fb - c3) <= 7000 * u /\ 1.2e-3 <= Rabs (sin fb)) \/ (Rabs (cos fb - c3) <= 1.3e-6 /\ Rabs (sin fb) <= u)) by (rewrite Q1, Q2, Rabs_Ropp; exact HC).
  assert (T1 : Rabs (rn (rn (z * a) - rn (L' * b)) - (z * (1 + cos fa) - L * sin fa)) <= 370 * u) by (apply (sube _ _ _ _ 116 181 8 5.7); bb).
  assert (T2 : Rabs (rn (rn (z * a) + rn (L' * b)) - (z * (1 + cos fa) + L * sin fa)) <= 370 * u) by (apply (adde _ _ _ _ 116 181 8 5.7); bb).
  assert (D1 : Rabs (rn (rn (L' * a) + rn (z * b)) - (L * (1 + cos fa) + z * sin fa)) <= 370 * u) by (apply (adde _ _ _ _ 260 83 11.4 4); bb).
  assert (D2 : Rabs (rn (rn (- L' * a) + rn (z * b)) - (- L * (1 + cos fa) + z * sin fa)) <= 370 * u) by (apply (adde _ _ _ _ 260 83 11.4 4); bb).
  assert (D3 : Rabs (rn (rn (L' * a) - rn (z * b)) - (L * (1 + cos fa) - z * sin fa)) <= 370 * u) by (apply (sube _ _ _ _ 260 83 11.4 4); bb).
  assert (D4 : Rabs (rn (rn (- L' * a) - rn (z * b)) - (- L * (1 + cos fa) - z * sin fa)) <= 370 * u) by (apply (sube _ _ _ _ 260 83 11.4 4); bb).
  eexists. split; [reflexivity|]. split; [reflexivity|]. repeat apply Forall_cons; [| | | |constructor].
  - apply (anthro_row_e x y z L _ th _ fa); auto.
  - apply (anthro_row_e x y z L _ th _ fb); auto; rewrite Q1, Q2.
    + replace (z * (1 + cos fa) - L * - sin fa) with (z * (1 + cos fa) + L * sin fa) by ring. auto.
    + replace (L * (1 + cos fa) + z * - sin fa) with (L * (1 + cos fa) - z * sin fa) by ring. auto.
  - apply (anthro_row_e x y z (- L) _ th' _ fa); auto; try lra.
    replace (z * (1 + cos fa) - - L * sin fa) with (z * (1 + cos fa) + L * sin fa) by ring. auto.
  - apply (anthro_row_e x y z (- L) _ th' _ fb); auto; try lra; rewrite Q1, Q2.
    + replace (z * (1 + cos fa) - - L * - sin fa) with (z * (1 + cos fa) - L * sin fa) by ring. auto.
    + replace (- L * (1 + cos fa) + z * - sin fa) with (- L * (1 + cos fa) - z * sin fa) by ring. auto.
Qed.

(** which branch each row takes *)
Lemma fanthro_rows r T : link_a r 1 = Ok l2 -> link_a r 2 = Ok l3 -> Rabs (vx (pos T)) <= 4 -> Rabs (vy (pos T)) <= 4 -> Rabs (vz (pos T)) <= 4 -> forall sols, fanthro_ik A r T = Ok (IkOk sols) ->
  let L := sqrt (vx (pos T) ^ 2 + vy (pos T) ^ 2) in
  exists t1 t1' b1 b2 b3 b4 t3 t3', sols = [[t1; b1; t3]; [t1; b2; t3']; [t1'; b3; t3]; [t1'; b4; t3']] /\
    Rabs (vx (pos T) - L * cos t1) <= 4 * u * L /\ Rabs (vy (pos T) - L * sin t1) <= 4 * u * L /\ Rabs (vx (pos T) + L * cos t1') <= 4 * u * L /\ Rabs (vy (pos T) + L * sin t1') <= 4 * u * L /\
    Rabs (cos t3' - cos t3) <= 8 * u /\ Rabs (sin t3' + sin t3) <= 8 * u /\ - (5 * u) <= sin t3 /\
    (Rabs ((norm2 (pos T) - 2) / 2) <= 1 - 1.5e-6 -> 1.1e-3 <= sin t3).
Proof.
  intros K2 K3 Bx By Bz sols. unfold fanthro_ik. rewrite K2, K3. cbn [bind]. replace ((norm2 (pos T) - 2) / 2) with ((vx (pos T) ^ 2 + vy (pos T) ^ 2 + vz (pos T) ^ 2 - 2) / 2) by (unfold norm2, vdot; field).
  set (x := vx (pos T)) in *. set (y := vy (pos T)) in *. set (z := vz (pos T)) in *. destruct (anthro_c3_e x y z Bx By Bz) as (c & Ec & Hc). rewrite Ec. cbn [bind].
  set (c3 := (x ^ 2 + y ^ 2 + z ^ 2 - 2) / 2) in *. destruct (felbow A (rn c)) as [cc|] eqn:EF; [|discriminate]. intros E. injection E as <-. set (L := sqrt (x ^ 2 + y ^ 2)).
  destruct (q3_cs (rn c) c3 (3500 * u) cc ltac:(lra) Hc EF) as (fa & fb & Q1 & Q2 & Q3 & Q4 & Q5 & Q6 & Q7). set (s3 := fsqrt A (rn (1 - fsq A cc))) in *.
  destruct (io_atan _ _ _ _ _ OK y x) as (th & P1 & P2 & P3). destruct (io_atan _ _ _ _ _ OK (- y) (- x)) as (th' & N1 & N2 & N3).
  replace ((- x) ^ 2) with (x ^ 2) in * by ring. replace ((- y) ^ 2) with (y ^ 2) in * by ring. fold L in P1, P2, N1, N2. assert (L0 : 0 <= L) by apply sqrt_pos.
  do 8 eexists. split; [reflexivity|].
  assert (KK : forall a b, Rabs (a - b) <= 4 * u -> Rabs (L * a - L * b) <= 4 * u * L).
  { intros a b H. rewrite <- Rmult_minus_distr_l, Rabs_mult, (abs_ge L), Rmult_comm by auto. apply Rmult_le_compat_r; auto. }
  pose proof (cos_lip th (fatan2 A y x)) as C1. pose proof (sin_lip th (fatan2 A y x)) as S1. rewrite (Rabs_minus_sym th) in C1, S1.
  pose proof (cos_lip (fatan2 A (- y) (- x)) th') as C2. pose proof (sin_lip (fatan2 A (- y) (- x)) th') as S2.
  split; [replace (x - L * cos (fatan2 A y x)) with (L * cos th - L * cos (fatan2 A y x)) by lra; apply KK; lra|].
  split; [replace (y - L * sin (fatan2 A y x)) with (L * sin th - L * sin (fatan2 A y x)) by lra; apply KK; lra|].
  split; [replace (x + L * cos (fatan2 A (- y) (- x))) with (L * cos (fatan2 A (- y) (- x)) - L * cos th') by lra; apply KK; lra|].
  split; [replace (y + L * sin (fatan2 A (- y) (- x))) with (L * sin (fatan2 A (- y) (- x)) - L * sin th') by lra; apply KK; lra|].
  pose proof (cos_lip (fatan2 A s3 cc) fa) as C3. pose proof (sin_lip (fatan2 A s3 cc) fa) as S3. pose proof (cos_lip (fatan2 A (- s3) cc) fb) as C4. pose proof (sin_lip (fatan2 A (- s3) cc) fb) as S4.
  rewrite Q1 in C4. rewrite Q2 in S4. assert (C3' := Rabs_le_inv _ _ (Rle_trans _ _ _ C3 Q3)). assert (S3' := Rabs_le_inv _ _ (Rle_trans _ _ _ S3 Q3)). assert (C4' := Rabs_le_inv _ _ (Rle_trans _ _ _ C4 Q4)). assert (S4' := Rabs_le_inv _ _ (Rle_trans _ _ _ S4 Q4)).
  split; [apply Rabs_le; lra|]. split; [apply Rabs_le; lra|]. destruct Q7 as [[U1 U2]|[U1 U2]]; [split; [lra|intros; lra]|]. pose proof (Rabs_pos (sin fa)) as F0.
  assert (B2 : sin fa * sin fa <= 1e-13) by (replace (sin fa * sin fa) with (Rabs (sin fa) * Rabs (sin fa)) by (rewrite <- Rabs_mult; apply abs_ge; nra); apply Rle_trans with (1e-13 * 1); [apply Rmult_le_compat; lra|lra]).
  apply Rabs_le_inv in U2. split; [lra|]. intros HC. exfalso.
  pose proof (sin2_cos2 fa) as T3. unfold Rsqr in T3. apply Rabs_le_inv in U1. apply Rabs_le_inv in HC. destruct (COS_bound fa).
  destruct (Rle_dec 0 (cos fa)).
  - assert (C5 : cos fa * cos fa <= cos fa * 1) by (apply Rmult_le_compat_l; lra). lra.
  - assert (C5 : - cos fa * - cos fa <= - cos fa * 1) by (apply Rmult_le_compat_l; lra). lra.
Qed.
End Anthro.

(** ** Any arm whose numbers are rounded *)
Lemma anthro_links u eta r r' : 0 < u <= 1e-13 -> 0 <= eta <= u ^ 2 -> like r (AnthropomorphicArm 1 1) -> robot_near u eta r r' ->
  exists l2 l3, link_a r' 1 = Ok l2 /\ link_a r' 2 = Ok l3 /\ Rabs (l2 - 1) <= 2 * u /\ Rabs (l3 - 1) <= 2 * u.
Proof.
  intros Hu He [_ E] [NL _ _]. revert E NL. generalize (r_links r) as ls. unfold link_a. generalize (r_links r') as ls'. intros ls' ls E NL.
  destruct ls as [|k1 [|k2 [|k3 [|]]]]; try discriminate E. inversion NL as [|? m1 ? ls1 N1 NL1]; subst. inversion NL1 as [|? m2 ? ls2 N2 NL2]; subst. inversion NL2 as [|? m3 ? ls3 N3 NL3]; subst. inversion NL3; subst.
  cbn in E. injection E as E1 E2 E3 E4 E5 E6. exists (da (l_dh m2)), (da (l_dh m3)). split; [reflexivity|]. split; [reflexivity|].
  assert (A2 : da (l_dh k2) = 1) by (first [rewrite E3|rewrite E2]; reflexivity). assert (A3 : da (l_dh k3) = 1) by (first [rewrite E5|rewrite E3]; reflexivity).
  assert (B : Rabs 1 <= 1) by (rewrite Rabs_R1; lra). destruct N2 as (_ & _ & D2 & _). destruct N3 as (_ & _ & D3 & _). rewrite A2 in D2. rewrite A3 in D3. split; eapply rd_e; eauto.
Qed.
Section Arm.
Context (A : arith_ik) (u eta g h : R) (OK : ik_ok A u eta g h).
Context (Hu : 0 < u <= 1e-13) (He : 0 <= eta <= u ^ 2) (Hg : 0 <= g <= 8 * u) (Hh : 0 <= h <= u).
Lemma fanthro_sound r r' T : like r (AnthropomorphicArm 1 1) -> r_tfb r = eye4 -> r_tool r = None -> robot_near u eta r r' -> Rabs (vx (pos T)) <= 4 -> Rabs (vy (pos T)) <= 4 -> Rabs (vz (pos T)) <= 4 ->
  (fanthro_ik A r' T = Ok IkFail /\ forall q1 q2 q3 F, snd (fk r [q1; q2; q3]) = Ok F -> pos F <> pos T) \/
  exists sols, fanthro_ik A r' T = Ok (IkOk sols) /\ length sols = 4%nat /\
    forall q, In q sols -> exists q1 q2 q3 F, q = [q1; q2; q3] /\ snd (fk r q) = Ok F /\
      ((1.1e-3 <= Rabs (sin q3) /\ len (vsub (pos F) (pos T)) <= 1.1e7 * u) \/ (Rabs (sin q3) <= 5 * u /\ len (vsub (pos F) (pos T)) <= 2.4e-3 /\ 1 - 1.4e-6 <= Rabs ((norm2 (pos T) - 2) / 2))).
Proof.
  intros K B N NR Bx By Bz. destruct (anthro_links u eta r r' Hu He K NR) as (l2 & l3 & K2 & K3 & E2 & E3).
  assert (FK : forall q1 q2 q3, exists F, snd (fk r [q1; q2; q3]) = Ok F /\ pos F = arm_pos 0 1 1 q1 q2 q3).
  { intros. rewrite (fk_no_base r (AnthropomorphicArm 1 1)) by auto using Anthro_good. apply anthro_fk. }
  destruct (fanthro_e A u eta g h OK Hu He l2 l3 E2 E3 r' T K2 K3 Bx By Bz) as [[E H]|(qs & E & Ln & H)]; [left|right].
  - split; [exact E|]. intros q1 q2 q3 F EF PF. destruct (FK q1 q2 q3) as (F' & E' & P'). rewrite E' in EF. injection EF as ->. rewrite <- PF, P' in H.
    assert (M : (norm2 (arm_pos 0 1 1 q1 q2 q3) - 2) / 2 = cos q3) by (rewrite arm_pos_norm; field).
    rewrite M in H. destruct (abs_1 q3). lra.
  - exists qs. split; [exact E|]. split; [exact Ln|]. intros q Iq. rewrite Forall_forall in H. destruct (H q Iq) as (q1 & q2 & q3 & -> & X). destruct (FK q1 q2 q3) as (F & E' & P'). exists q1, q2, q3, F. rewrite P'. auto.
Qed.
(** a point 1/1024 from the shoulder can be reached, yet every row returned folds the arm *)
Lemma fanthro_folded r r' T : like r (AnthropomorphicArm 1 1) -> r_tfb r = eye4 -> r_tool r = None -> robot_near u eta r r' -> pos T = V3 (/ 1024) 0 0 ->
  (exists q1 q2 q3 F, snd (fk r [q1; q2; q3]) = Ok F /\ pos F = pos T) /\
  exists sols, fanthro_ik A r' T = Ok (IkOk sols) /\ length sols = 4%nat /\ forall q, In q sols -> exists F, snd (fk r q) = Ok F /\ 9e-4 <= len (vsub (pos F) (pos T)).
Proof.
  intros K B N NR P. assert (B0 : Rabs 0 <= 4) by (apply abs_const; lra). assert (Bk : Rabs (/ 1024) <= 4) by (apply abs_const; lra).
  assert (RE : exists q1 q2 q3 F, snd (fk r [q1; q2; q3]) = Ok F /\ pos F = pos T).
  { destruct (unit_angle ((/ 1024) ^ 2 / 2 - 1) (sqrt (1 - ((/ 1024) ^ 2 / 2 - 1) ^ 2))) as (q3 & C & _); [rewrite pow2_sqrt; [ring|lra]|].
    destruct (two_link_exact 1 1 (/ 1024) 0 q3) as [E1 E2]; [rewrite C; field|lra|]. set (q2 := two_link_q2 1 1 (/ 1024) 0 (cos q3) (sin q3)) in *.
    destruct (anthro_fk 1 1 0 q2 q3) as (F & EF & PF). exists 0, q2, q3, F. rewrite (fk_no_base r (AnthropomorphicArm 1 1)) by auto using Anthro_good. split; [exact EF|].
    rewrite PF, P. unfold arm_pos. rewrite E1, E2, cos_0, sin_0. apply vec3_eq; cbn; ring. }
  split; [exact RE|].
  destruct (fanthro_sound r r' T K B N NR) as [[_ H]|(sols & E & Ln & H)]; try (rewrite P; cbn [vx vy vz]; assumption).
  - exfalso. destruct RE as (q1 & q2 & q3 & F & EF & PF). exact (H q1 q2 q3 F EF PF).
  - exists sols. split; [exact E|]. split; [exact Ln|]. intros q Iq. destruct (H q Iq) as (q1 & q2 & q3 & F & -> & EF & X). exists F. split; [exact EF|].
    pose proof EF as EF'. rewrite (fk_no_base r (AnthropomorphicArm 1 1)) in EF' by auto using Anthro_good. destruct (anthro_fk 1 1 q1 q2 q3) as (F' & E' & P'). rewrite E' in EF'. injection EF' as ->.
    pose proof (arm_pos_norm q1 q2 q3) as NN. rewrite <- P' in NN. rewrite <- len_sqr in NN. pose proof (len_nonneg (pos F)) as L0.
    assert (LT : len (pos T) = / 1024) by (rewrite P, len_x; apply abs_ge; lra).
    pose proof (len_diff (pos F) (pos T)) as LD. rewrite LT in LD. set (D := len (vsub (pos F) (pos T))) in *. set (l := len (pos F)) in *. apply Rabs_le_inv in LD.
    pose proof (sin2_cos2 q3) as T3. unfold Rsqr in T3. destruct (COS_bound q3) as [C1 C2]. assert (SS : sin q3 * sin q3 = Rabs (sin q3) * Rabs (sin q3)) by (rewrite <- Rabs_mult; symmetry; apply abs_ge; nra).
    pose proof (Rabs_pos (sin q3)) as S0. destruct X as [[X1 X2]|(X1 & X2 & _)].
    + exfalso. assert (S2 : 1.21e-6 <= sin q3 * sin q3) by (rewrite SS; apply Rle_trans with (1.1e-3 * 1.1e-3); [lra|apply Rmult_le_compat; lra]).
      assert (C3 : sin q3 * sin q3 <= 2 + 2 * cos q3) by nra. assert (1.1e-3 <= l) by (apply Rsqr_incr_0_var; [unfold Rsqr; lra|lra]). lra.
    + assert (S2 : sin q3 * sin q3 <= 1e-12) by (rewrite SS; apply Rle_trans with (1e-12 * 1); [apply Rmult_le_compat; lra|lra]).
      destruct (Rle_dec 0 (cos q3)) as [Cp|Cn]; [exfalso; assert (1 <= l) by (apply Rsqr_incr_0_var; [unfold Rsqr; lra|lra]); lra|].
      assert (C3 : - cos q3 * - cos q3 <= - cos q3 * 1) by (apply Rmult_le_compat_l; lra). assert (l <= 1e-5) by (apply Rsqr_incr_0_var; [unfold Rsqr; lra|lra]). lra.
Qed.
Lemma fanthro_branches r r' T : like r (AnthropomorphicArm 1 1) -> robot_near u eta r r' -> Rabs (vx (pos T)) <= 4 -> Rabs (vy (pos T)) <= 4 -> Rabs (vz (pos T)) <= 4 ->
  forall sols, fanthro_ik A r' T = Ok (IkOk sols) -> let L := sqrt (vx (pos T) ^ 2 + vy (pos T) ^ 2) in
  exists t1 t1' b1 b2 b3 b4 t3 t3', sols = [[t1; b1; t3]; [t1; b2; t3']; [t1'; b3; t3]; [t1'; b4; t3']] /\
    Rabs (vx (pos T) - L * cos t1) <= 4 * u * L /\ Rabs (vy (pos T) - L * sin t1) <= 4 * u * L /\ Rabs (vx (pos T) + L * cos t1') <= 4 * u * L /\ Rabs (vy (pos T) + L * sin t1') <= 4 * u * L /\
    Rabs (cos t3' - cos t3) <= 8 * u /\ Rabs (sin t3' + sin t3) <= 8 * u /\ - (5 * u) <= sin t3 /\
    (Rabs ((norm2 (pos T) - 2) / 2) <= 1 - 1.5e-6 -> 1.1e-3 <= sin t3).
Proof.
  intros K NR Bx By Bz. destruct (anthro_links u eta r r' Hu He K NR) as (l2 & l3 & K2 & K3 & E2 & E3). exact (fanthro_rows A u eta g h OK Hu He l2 l3 E2 E3 r' T K2 K3 Bx By Bz).
Qed.
End Arm.

(** ** tests/test_robot.py:240-249 in double precision *)
Lemma anthro_close64 r r' q1 q2 q3 : like r (AnthropomorphicArm 1 1) -> r_tfb r = eye4 -> r_tool r = None -> robot_near u64 eta64 r r' ->
  exists T T', snd (fk r [q1; q2; q3]) = Ok T /\ snd (ffk double r' [q1; q2; q3]) = Ok T' /\ close 2e-13 4e-13 T T'.
Proof.
  intros Lk B Tl NR. set (q := [q1; q2; q3]).
  assert (Nq : joints_near u64 eta64 (r_links r) q q) by (clear - Lk; pose proof u64_pos as U0; destruct Lk as [_ LL]; revert LL; generalize (r_links r); intros ls E; destruct ls as [|k1 [|k2 [|k3 [|]]]]; try discriminate E; cbn in E; injection E; intros J3 _ J2 _ J1 _; assert (Z : forall x, Rabs (x - x) <= 4 * u64) by (intros; rewrite Rminus_eq_0, Rabs_R0; lra); repeat constructor; unfold joint_near; [rewrite J1|rewrite J2|rewrite J3]; apply Z).
  assert (S : span (r_links r) q = 2).
  { rewrite (like_span _ _ q (proj2 Lk)). cbn. rewrite !Rabs_R0. rewrite !Rabs_right by lra. lra. }
  destruct (ffk_close64 r r' q q 0 (proj1 Lk)) as (T & T' & H1 & H2 & H3); auto.
  - apply (like_joints_ok _ _ Lk). repeat constructor; discriminate.
  - unfold ndof. destruct Lk as [_ E]. apply (f_equal (@length _)) in E. rewrite !map_length in E. rewrite E. cbn. lia.
  - rewrite B. apply eye_sane. lra.
  - lra.
  - rewrite S. lra.
  - exists T, T'. split; [exact H1|]. split; [exact H2|]. revert H3. apply close_le; [lra|rewrite S; lra].
Qed.
Lemma anthro_roundtrip r r' q1 q2 q3 : like r (AnthropomorphicArm 1 1) -> r_tfb r = eye4 -> r_tool r = None -> robot_near u64 eta64 r r' ->
  let (rob1, T1) := ffk double r' [q1; q2; q3] in
  robot_near u64 eta64 r rob1 /\ exists T1' sols, T1 = Ok T1' /\ fanthro_ik double_ik rob1 T1' = Ok (IkOk sols) /\ length sols = 4%nat /\
  (Rabs (cos q3) <= 1 - 1.5e-6 -> forall q, In q sols -> forall r3, robot_near u64 eta64 r r3 ->
    exists T2', snd (ffk double r3 q) = Ok T2' /\ Rabs (vx (pos T2') - vx (pos T1')) <= 1.5e-9 /\ Rabs (vy (pos T2') - vy (pos T1')) <= 1.5e-9 /\ Rabs (vz (pos T2') - vz (pos T1')) <= 1.5e-9).
Proof.
  intros K B N NR. pose proof u64_pos as U0. pose proof eta64_pos as E0. pose proof u64_le as U1. pose proof eta64_le as E1. pose proof eta64_sq as E2.
  assert (Hu : 0 < u64 <= 1e-13) by lra. assert (He : 0 <= eta64 <= u64 ^ 2) by lra.
  destruct (anthro_close64 r r' q1 q2 q3 K B N NR) as (T & T1' & F1 & F2 & _ & (c1 & c2 & c3) & _).
  pose proof (ffk_near double_ik u64 eta64 r r' [q1; q2; q3] NR) as NR1. cbn [double_ik ar] in NR1. destruct (ffk double r' [q1; q2; q3]) as [rob1 T1]. cbn [fst snd] in *. subst T1. split; [exact NR1|].
  pose proof F1 as P1. rewrite (fk_no_base r (AnthropomorphicArm 1 1)) in P1 by auto using Anthro_good. destruct (anthro_fk 1 1 q1 q2 q3) as (T' & E' & PT). rewrite E' in P1. injection P1 as ->.
  pose proof (arm_pos_norm q1 q2 q3) as NN. rewrite <- PT in NN. destruct (COS_bound q3) as [C1 C2].
  assert (LT : len (pos T) <= 2.1) by (unfold len; rewrite <- (sqrt_pow2 2.1) by lra; apply sqrt_le_1_alt; rewrite NN; lra).
  assert (LD : len (vsub (pos T1') (pos T)) <= 1.2e-12) by (eapply Rle_trans; [apply len_abs_le|]; unfold vsub; cbn [vx vy vz]; lra).
  assert (L1 : len (pos T1') <= 2.2) by (pose proof (len_sub_le _ _ _ LD); lra).
  assert (N1 : Rabs (norm2 (pos T1') - norm2 (pos T)) <= 1e-11).
  { rewrite <- !len_sqr. pose proof (len_diff (pos T1') (pos T)) as DD. pose proof (len_nonneg (pos T1')). pose proof (len_nonneg (pos T)).
    replace (len (pos T1') * len (pos T1') - len (pos T) * len (pos T)) with ((len (pos T1') - len (pos T)) * (len (pos T1') + len (pos T))) by ring.
    eapply Rle_trans; [apply (abs_mul_le _ _ 1.2e-12 4.3); [lra|rewrite abs_ge; lra]|lra]. }
  rewrite NN in N1. set (c := (norm2 (pos T1') - 2) / 2) in *. assert (CC : Rabs (c - cos q3) <= 1e-11) by (unfold c; apply Rabs_le_inv in N1; apply Rabs_le; lra).
  assert (Bc : Rabs c <= 1 + 1e-11) by (apply Rabs_le_inv in CC; apply Rabs_le; lra).
  destruct (len_comp (pos T1')) as (Bx & By & Bz). destruct (anthro_links u64 eta64 r rob1 Hu He K NR1) as (l2 & l3 & K2 & K3 & X2 & X3).
  destruct (fanthro_e double_ik u64 eta64 (5 * u64) (10 * eta64) double_ik_ok Hu He l2 l3 X2 X3 rob1 T1' K2 K3 ltac:(lra) ltac:(lra) ltac:(lra)) as [[_ H]|(sols & E & Ln & H)]; [fold c in H; lra|].
  exists T1', sols. split; [reflexivity|]. split; [exact E|]. split; [exact Ln|]. intros Hq q Iq r3 NR3. rewrite Forall_forall in H. destruct (H q Iq) as (p1 & p2 & p3 & -> & X). fold c in X.
  destruct (anthro_close64 r r3 p1 p2 p3 K B N NR3) as (S & T2' & G1 & G2 & _ & (d1 & d2 & d3) & _). exists T2'. split; [exact G2|].
  pose proof G1 as P2. rewrite (fk_no_base r (AnthropomorphicArm 1 1)) in P2 by auto using Anthro_good. destruct (anthro_fk 1 1 p1 p2 p3) as (S' & ES & PS). rewrite ES in P2. injection P2 as ->. rewrite <- PS in X.
  destruct X as [[_ X]|(_ & _ & X)].
  - destruct (len_comp (vsub (pos S) (pos T1'))) as (f1 & f2 & f3). unfold vsub in f1, f2, f3. cbn [vx vy vz] in f1, f2, f3. fold (vsub (pos S) (pos T1')) in f1, f2, f3.
    assert (UB : 1.1e7 * u64 <= 1.4e-9) by lra. repeat split; (eapply Rle_trans; [eapply abs3; [eassumption|eapply Rle_trans; [eassumption|]]|]; [exact X|lra]).
  - exfalso. pose proof (abs_tri _ _ _ CC). lra.
Qed.

(** ** Concrete cases *)
Lemma anthro_bare : let r := AnthropomorphicArm 1 1 in like r r /\ r_tfb r = eye4 /\ r_tool r = None /\ robot_near u64 eta64 r (round_robot r).
Proof.
  cbv zeta. split; [apply like_refl, Anthro_good|]. split; [reflexivity|]. split; [reflexivity|]. apply round_robot_near. pose proof PI_4. pose proof PI_RGT_0.
  repeat constructor; cbn; rewrite ?Rabs_R0; try lra. rewrite Rabs_right; lra.
Qed.
Lemma anthro_right_angle : let r' := round_robot (AnthropomorphicArm 1 1) in exists rob1 T1 sols,
  ffk double r' [0; 0; PI / 2] = (rob1, Ok T1) /\ fanthro_ik double_ik rob1 T1 = Ok (IkOk sols) /\ length sols = 4%nat /\
  forall q, In q sols -> exists T2, snd (ffk double rob1 q) = Ok T2 /\ Rabs (vx (pos T2) - vx (pos T1)) <= 1.5e-9.
Proof.
  cbv zeta. destruct anthro_bare as (K & B & N & NR). pose proof (anthro_roundtrip _ _ 0 0 (PI / 2) K B N NR) as H. destruct (ffk double _ _) as [rob1 T1]. destruct H as (NR1 & T1' & sols & -> & E & Ln & H).
  exists rob1, T1', sols. split; [reflexivity|]. split; [exact E|]. split; [exact Ln|]. intros q Iq. rewrite cos_PI2, Rabs_R0 in H. destruct (H ltac:(lra) q Iq rob1 NR1) as (T2 & E2 & X & _). exists T2. auto.
Qed.
Lemma u64_ok : 0 < u64 <= 1e-13 /\ 0 <= eta64 <= u64 ^ 2.
Proof. pose proof u64_pos. pose proof eta64_pos. pose proof u64_le. pose proof eta64_sq. lra. Qed.
Lemma anthro_folded_double : let r := AnthropomorphicArm 1 1 in exists sols, fanthro_ik double_ik (round_robot r) (M4 mid (V3 (/ 1024) 0 0) v0 1) = Ok (IkOk sols) /\
  forall q, In q sols -> exists F, snd (fk r q) = Ok F /\ 9e-4 <= len (vsub (pos F) (V3 (/ 1024) 0 0)).
Proof.
  cbv zeta. destruct anthro_bare as (K & B & N & NR). destruct u64_ok as [Hu He].
  destruct (fanthro_folded double_ik u64 eta64 _ _ double_ik_ok Hu He _ _ (M4 mid (V3 (/ 1024) 0 0) v0 1) K B N NR eq_refl) as [_ (sols & E & _ & H)]. exists sols. split; [exact E|exact H].
Qed.
Lemma anthro_far : let r := AnthropomorphicArm 1 1 in fanthro_ik double_ik (round_robot r) (M4 mid (V3 3 0 0) v0 1) = Ok IkFail.
Proof.
  cbv zeta. destruct anthro_bare as (K & B & N & NR). destruct u64_ok as [Hu He]. assert (B3 : Rabs 3 <= 4) by (apply abs_const; lra). assert (B0 : Rabs 0 <= 4) by (apply abs_const; lra).
  destruct (fanthro_sound double_ik u64 eta64 _ _ double_ik_ok Hu He _ _ (M4 mid (V3 3 0 0) v0 1) K B N NR B3 B0 B0) as [[E _]|(sols & E & Ln & H)]; [exact E|exfalso].
  destruct sols as [|q sols]; [discriminate|]. destruct (H q (or_introl eq_refl)) as (q1 & q2 & q3 & F & -> & EF & X).
  destruct (anthro_fk 1 1 q1 q2 q3) as (F' & E' & P'). rewrite E' in EF. injection EF as ->. pose proof (arm_pos_norm q1 q2 q3) as NN. rewrite <- P' in NN. destruct (COS_bound q3).
  assert (L : len (pos F) <= 2) by (unfold len; rewrite <- (sqrt_pow2 2) by lra; apply sqrt_le_1_alt; rewrite NN; lra).
  pose proof (len_diff (pos F) (V3 3 0 0)) as D. cbn [pos] in X. rewrite (len_x 3), (abs_ge 3) in D by lra. apply Rabs_le_inv in D. lra.
Qed.
