(** * The arm of the Kuka in floating point: error of the three angles. *)
From Coq Require Import Reals Lra Lia Psatz List Bool Arith ZArith.
From Verif Require Import PyBase Mat Util UtilProofs Geometry GeometryProofs Robot RobotProofs RobotForms Ik IkProofs KukaProofs Motion FloatFk FloatFkProofs FloatIk FloatIkProofs.
Import ListNotations.
Local Open Scope R_scope.

Ltac bb := first [assumption | lra | (split; lra)].

Lemma abs_ge x : 0 <= x -> Rabs x = x. Proof. intros; apply Rabs_right; lra. Qed.
Lemma abs_sq x X : Rabs x <= X -> Rabs (x ^ 2) <= X ^ 2.
Proof. intros H. rewrite abs_ge by nra. rewrite <- (pow2_abs x). apply pow_incr. split; [apply Rabs_pos|auto]. Qed.
Lemma abs_const x X : 0 <= x <= X -> Rabs x <= X. Proof. intros. rewrite abs_ge; lra. Qed.

(** ** A two-link arm whose shoulder points along a slightly wrong direction *)
Lemma planar A B r z D' N' ps k dl : 4e-4 <= A ^ 2 + B ^ 2 <= 1.5 -> Rabs (A ^ 2 + B ^ 2 - (r ^ 2 + z ^ 2)) <= dl -> dl <= 2e-6 -> 0 <= k <= 1e-10 ->
  Rabs (D' - (r * A + z * B)) <= k -> Rabs (N' - (z * A - r * B)) <= k ->
  D' = sqrt (D' ^ 2 + N' ^ 2) * cos ps -> N' = sqrt (D' ^ 2 + N' ^ 2) * sin ps ->
  Rabs (A * cos ps - B * sin ps - r) <= 26 * dl + 16000 * k /\ Rabs (A * sin ps + B * cos ps - z) <= 26 * dl + 16000 * k.
Proof.
  intros HV HW Hd Hk HD HN EC ES. set (D := r * A + z * B) in *. set (N := z * A - r * B) in *. set (rho := sqrt (D' ^ 2 + N' ^ 2)) in *.
  set (V := sqrt (A ^ 2 + B ^ 2)). set (W := sqrt (r ^ 2 + z ^ 2)).
  assert (VV : V ^ 2 = A ^ 2 + B ^ 2) by apply sqrt_sum_sq. assert (WW : W ^ 2 = r ^ 2 + z ^ 2) by apply sqrt_sum_sq.
  assert (V0 : 0 <= V) by apply sqrt_pos. assert (W0 : 0 <= W) by apply sqrt_pos. rewrite <- VV, <- WW in HW. rewrite <- VV in HV.
  pose proof HW as HW'. apply Rabs_le_inv in HW'. assert (V1 : 0.02 <= V <= 1.225) by (split; nra). assert (W1 : 0.0199 <= W <= 1.23) by (split; nra).
  destruct (hyp_abs A B) as [BA BB]. fold V in BA, BB. destruct (hyp_abs r z) as [Br Bz]. fold W in Br, Bz.
  assert (VW : Rabs (V - W) <= 25.1 * dl).
  { assert (F : Rabs (V - W) * (V + W) <= dl). { rewrite <- (abs_ge (V + W)) by lra. rewrite <- Rabs_mult. replace ((V - W) * (V + W)) with (V ^ 2 - W ^ 2) by ring. auto. }
    pose proof (Rabs_pos (V - W)). assert (Rabs (V - W) * 0.0399 <= Rabs (V - W) * (V + W)) by (apply Rmult_le_compat_l; lra). lra. }
  assert (RV : Rabs (rho - V * W) <= 2 * k).
  { replace (V * W) with (sqrt (D ^ 2 + N ^ 2)); [apply hyp_lip; auto|]. rewrite <- (sqrt_pow2 (V * W)) by (apply Rmult_le_pos; lra). f_equal. rewrite Rpow_mult_distr, VV, WW. unfold D, N. ring. }
  assert (P0 : 3.98e-4 <= V * W) by nra. pose proof RV as RV'. apply Rabs_le_inv in RV'. assert (Rp : 3.97e-4 <= rho) by lra.
  assert (fin : forall t e1 x, rho * t = e1 + x * V * (V - W) + x * (V * W - rho) -> Rabs e1 <= 2.45 * k -> Rabs x <= W -> Rabs t <= 26 * dl + 16000 * k).
  { intros t e1 x Et He1 Hx.
    assert (M : Rabs (rho * t) <= 2.45 * k + (rho + 2 * k) * (25.1 * dl) + 1.23 * (2 * k)).
    { rewrite Et. eapply Rle_trans; [apply Rabs_triang|]. apply Rplus_le_compat; [eapply Rle_trans; [apply Rabs_triang|]; apply Rplus_le_compat; [auto|]|].
      - apply abs_mul_le; [|auto]. rewrite Rabs_mult, (abs_ge V) by lra. assert (Rabs x * V <= W * V) by (apply Rmult_le_compat_r; lra). lra.
      - apply abs_mul_le; [lra|]. replace (V * W - rho) with (- (rho - V * W)) by ring. rewrite Rabs_Ropp. auto. }
    rewrite Rabs_mult, (abs_ge rho) in M by lra. apply Rmult_le_reg_l with rho; [lra|]. pose proof (Rabs_pos (V - W)). assert (K2 : k * dl <= k * 2e-6) by (apply Rmult_le_compat_l; lra).
    assert (K3 : 3.97e-4 * k <= rho * k) by (apply Rmult_le_compat_r; lra). assert (K4 : 0 <= rho * dl) by (apply Rmult_le_pos; lra). lra. }
  assert (KE : forall a b, Rabs a <= V -> Rabs b <= V -> Rabs (a * (D' - D) + b * (N' - N)) <= 2.45 * k).
  { intros a b Ha Hb. eapply Rle_trans; [apply Rabs_triang|]. replace (2.45 * k) with (1.225 * k + 1.225 * k) by lra. apply Rplus_le_compat; apply abs_mul_le; lra. }
  split.
  - apply (fin _ (A * (D' - D) + (- B) * (N' - N)) r); auto; [|apply KE; [auto|rewrite Rabs_Ropp; auto]].
    transitivity (A * (rho * cos ps) - B * (rho * sin ps) - rho * r); [ring|]. rewrite <- EC, <- ES.
    transitivity (A * (D' - D) + - B * (N' - N) + r * V ^ 2 - rho * r); [rewrite VV; unfold D, N; ring|ring].
  - apply (fin _ (B * (D' - D) + A * (N' - N)) z); auto.
    transitivity (A * (rho * sin ps) + B * (rho * cos ps) - rho * z); [ring|]. rewrite <- EC, <- ES.
    transitivity (B * (D' - D) + A * (N' - N) + z * V ^ 2 - rho * z); [rewrite VV; unfold D, N; ring|ring].
Qed.
(** the position reached, for the angle th of the first joint with (x, y) = l (cos th, sin th) *)
Lemma arm_pos_e x y z l th ps ph D' N' k dc : x = l * cos th -> y = l * sin th -> let r := l - 0.18 in
  Rabs (cos ph - elbow_cos 0.6 0.62 r z) <= dc -> dc <= 2.6e-6 -> 0 <= k <= 1e-10 ->
  Rabs (D' - (r * (0.6 + 0.62 * cos ph) + z * (0.62 * sin ph))) <= k -> Rabs (N' - (z * (0.6 + 0.62 * cos ph) - r * (0.62 * sin ph))) <= k ->
  D' = sqrt (D' ^ 2 + N' ^ 2) * cos ps -> N' = sqrt (D' ^ 2 + N' ^ 2) * sin ps ->
  len (vsub (arm_pos 0.18 0.6 0.62 th ps ph) (V3 x y z)) <= 1.42 * (20 * dc + 16000 * k).
Proof.
  intros Hx Hy r Hc Hd Hk HD HN EC ES. set (A := 0.6 + 0.62 * cos ph) in *. set (B := 0.62 * sin ph) in *.
  pose proof (sin2_cos2 ph) as T. unfold Rsqr in T. destruct (COS_bound ph) as [C1 C2].
  assert (V : A ^ 2 + B ^ 2 = 0.7444 + 0.744 * cos ph).
  { unfold A, B. transitivity (0.36 + 0.744 * cos ph + 0.3844 * (sin ph * sin ph + cos ph * cos ph)); [lra|rewrite T; lra]. }
  assert (W : r ^ 2 + z ^ 2 = 0.7444 + 0.744 * elbow_cos 0.6 0.62 r z) by (rewrite (elbow_cos_spec 0.6 0.62 ltac:(lra)); lra).
  destruct (planar A B r z D' N' ps k (0.744 * dc)) as [P1 P2]; auto.
  - rewrite V. lra.
  - rewrite V, W. replace (0.7444 + 0.744 * cos ph - (0.7444 + 0.744 * elbow_cos 0.6 0.62 r z)) with (0.744 * (cos ph - elbow_cos 0.6 0.62 r z)) by ring. apply abs_mul_le; auto. apply abs_const. lra.
  - lra.
  - destruct (reach_AB 0.6 0.62 ps ph) as [R1 R2]. cbv zeta in R1, R2. fold A B in R1, R2. rewrite <- R1 in P1. rewrite <- R2 in P2. pose proof (Rabs_pos (cos ph - elbow_cos 0.6 0.62 r z)) as D0.
    set (E := 20 * dc + 16000 * k). assert (E0 : 0 <= E) by (unfold E; lra).
    assert (Q1 : Rabs (reach_r 0.6 0.62 ps ph - r) <= E) by (unfold E; lra). assert (Q2 : Rabs (reach_z 0.6 0.62 ps ph - z) <= E) by (unfold E; lra).
    apply abs_sq in Q1. apply abs_sq in Q2. rewrite abs_ge in Q1 by apply pow2_ge_0. rewrite abs_ge in Q2 by apply pow2_ge_0.
    unfold len. rewrite <- (sqrt_pow2 (1.42 * E)) by lra. apply sqrt_le_1_alt. apply Rle_trans with ((reach_r 0.6 0.62 ps ph - r) ^ 2 + (reach_z 0.6 0.62 ps ph - z) ^ 2); [|nra].
    right. unfold norm2, arm_pos, vdot, vsub. cbn [vx vy vz]. rewrite Hx, Hy. replace l with (r + 0.18) by (unfold r; ring). pose proof (sin2_cos2 th) as T1. unfold Rsqr in T1.
    transitivity ((sin th * sin th + cos th * cos th) * (reach_r 0.6 0.62 ps ph - r) ^ 2 + (reach_z 0.6 0.62 ps ph - z) ^ 2); [ring|rewrite T1; ring].
Qed.

Section Arm.
Context (A : arith_ik) (u eta g h : R) (OK : ik_ok A u eta g h).
Context (Hu : 0 < u <= 1e-13) (He : 0 <= eta <= u ^ 2) (Hg : 0 <= g <= 8 * u) (Hh : 0 <= h <= u).
Local Notation rn := (rnd (ar A)).
Context (a1 a2 a3 : R) (E1 : Rabs (a1 - 0.18) <= 2 * u) (E2 : Rabs (a2 - 0.6) <= 2 * u) (E3 : Rabs (a3 - 0.62) <= 2 * u).

Local Notation mule := (mul_e A u eta g h OK Hu He).
Local Notation adde := (add_e A u eta g h OK Hu He).
Local Notation sube := (sub_e A u eta g h OK Hu He).
Local Notation sqe := (sq_e A u eta g h OK Hu He).

(** ** The cosine of the elbow *)
Definition fden : R := rn (rn (2 * a2) * a3).
Definition fnum (x y z : R) : R := rn (rn (rn (rn (rn (fsq A a1 - fsq A a2) - fsq A a3) + fsq A x) + fsq A y) + fsq A z).
Definition ftop (x y z q1 : R) : R := rn (rn (fnum x y z - rn (rn (rn (2 * a1) * fsin (ar A) q1) * y)) - rn (rn (rn (2 * a1) * x) * fcos (ar A) q1)).
Lemma fden_e : Rabs (fden - 0.744) <= 24 * u.
Proof.
  unfold fden. assert (H : Rabs (rn (2 * a2) - 2 * 0.6) <= 10 * u).
  { apply (mule 2 0.6 2 a2 0 2 2 0.6); try bb; [apply exact_e|apply abs_const; lra|apply abs_const; lra]. }
  replace 0.744 with (2 * 0.6 * 0.62) by lra. apply (mule (2 * 0.6) 0.62 (rn (2 * a2)) a3 10 2 1.2 0.62); try bb; apply abs_const; lra.
Qed.
Lemma fnum_e x y z : Rabs x <= 4 -> Rabs y <= 4 -> Rabs z <= 4 -> Rabs (fnum x y z - (0.18 ^ 2 - 0.6 ^ 2 - 0.62 ^ 2 + x ^ 2 + y ^ 2 + z ^ 2)) <= 300 * u.
Proof.
  intros Bx By Bz. pose proof (abs_sq _ _ Bx) as Qx. pose proof (abs_sq _ _ By) as Qy. pose proof (abs_sq _ _ Bz) as Qz.
  assert (S1 : Rabs (fsq A a1 - 0.18 ^ 2) <= 7 * u) by (apply (sqe 0.18 a1 2 0.18); try bb; apply abs_const; lra).
  assert (S2 : Rabs (fsq A a2 - 0.6 ^ 2) <= 11 * u) by (apply (sqe 0.6 a2 2 0.6); try bb; apply abs_const; lra).
  assert (S3 : Rabs (fsq A a3 - 0.62 ^ 2) <= 11 * u) by (apply (sqe 0.62 a3 2 0.62); try bb; apply abs_const; lra).
  assert (SX : forall t, Rabs t <= 4 -> Rabs (fsq A t - t ^ 2) <= 51 * u) by (intros t Ht; apply (sqe t t 0 4); try bb; apply exact_e).
  unfold fnum.
  assert (N1 : Rabs (rn (fsq A a1 - fsq A a2) - (0.18 ^ 2 - 0.6 ^ 2)) <= 22 * u) by (apply (sube _ _ _ _ 7 11 0.0324 0.36); try bb; apply abs_const; lra).
  assert (N2 : Rabs (rn (rn (fsq A a1 - fsq A a2) - fsq A a3) - (0.18 ^ 2 - 0.6 ^ 2 - 0.62 ^ 2)) <= 37 * u) by (apply (sube _ _ _ _ 22 11 0.3276 0.3844); try bb; apply Rabs_le; lra).
  apply Rabs_le_inv in Qx. apply Rabs_le_inv in Qy. apply Rabs_le_inv in Qz. pose proof (pow2_ge_0 x). pose proof (pow2_ge_0 y). pose proof (pow2_ge_0 z).
  assert (N3 : Rabs (rn (rn (rn (fsq A a1 - fsq A a2) - fsq A a3) + fsq A x) - (0.18 ^ 2 - 0.6 ^ 2 - 0.62 ^ 2 + x ^ 2)) <= 108 * u).
  { apply (adde _ _ _ _ 37 51 0.712 16); try bb; [auto|apply Rabs_le; lra|apply Rabs_le; lra]. }
  assert (N4 : Rabs (rn (rn (rn (rn (fsq A a1 - fsq A a2) - fsq A a3) + fsq A x) + fsq A y) - (0.18 ^ 2 - 0.6 ^ 2 - 0.62 ^ 2 + x ^ 2 + y ^ 2)) <= 194 * u).
  { apply (adde _ _ _ _ 108 51 16 16); try bb; [auto|apply Rabs_le; lra|apply Rabs_le; lra]. }
  apply (adde _ _ _ _ 194 51 32 16); try bb; [auto|apply Rabs_le; lra|apply Rabs_le; lra].
Qed.
Lemma ftop_e x y z q1 th : Rabs x <= 4 -> Rabs y <= 4 -> Rabs z <= 4 -> Rabs (q1 - th) <= 4 * u ->
  let top := 0.18 ^ 2 - 0.6 ^ 2 - 0.62 ^ 2 + x ^ 2 + y ^ 2 + z ^ 2 - 2 * 0.18 * sin th * y - 2 * 0.18 * x * cos th in
  Rabs (ftop x y z q1 - top) <= 656 * u /\ Rabs top <= 52.
Proof.
  intros Bx By Bz Bq top. destruct (abs_1 th) as [Bc Bs]. unfold ftop.
  pose proof (fnum_e x y z Bx By Bz) as N.
  assert (BN : Rabs (0.18 ^ 2 - 0.6 ^ 2 - 0.62 ^ 2 + x ^ 2 + y ^ 2 + z ^ 2) <= 48).
  { pose proof (abs_sq _ _ Bx) as Qx. pose proof (abs_sq _ _ By) as Qy. pose proof (abs_sq _ _ Bz) as Qz. apply Rabs_le_inv in Qx. apply Rabs_le_inv in Qy. apply Rabs_le_inv in Qz.
    pose proof (pow2_ge_0 x). pose proof (pow2_ge_0 y). pose proof (pow2_ge_0 z). apply Rabs_le; lra. }
  assert (T1 : Rabs (rn (2 * a1) - 2 * 0.18) <= 9 * u) by (apply (mule 2 0.18 2 a1 0 2 2 0.18); try bb; [apply exact_e|apply abs_const; lra|apply abs_const; lra]).
  assert (Sn : Rabs (fsin (ar A) q1 - sin th) <= 5 * u) by (replace 5 with (4 + 1) by lra; apply (sin_e A u eta g h OK); auto).
  assert (Cn : Rabs (fcos (ar A) q1 - cos th) <= 5 * u) by (replace 5 with (4 + 1) by lra; apply (cos_e A u eta g h OK); auto).
  assert (T2 : Rabs (rn (rn (2 * a1) * fsin (ar A) q1) - 2 * 0.18 * sin th) <= 24 * u) by (apply (mule (2 * 0.18) (sin th) _ _ 9 5 0.36 1); try bb; apply abs_const; lra).
  assert (B2 : Rabs (2 * 0.18 * sin th) <= 0.36) by (replace 0.36 with (0.36 * 1) by lra; apply abs_mul_le; [apply abs_const; lra|auto]).
  assert (T3 : Rabs (rn (rn (rn (2 * a1) * fsin (ar A) q1) * y) - 2 * 0.18 * sin th * y) <= 128 * u) by (apply (mule (2 * 0.18 * sin th) y _ y 24 0 0.36 4); try bb; apply exact_e).
  assert (B3 : Rabs (2 * 0.18 * sin th * y) <= 1.44) by (replace 1.44 with (0.36 * 4) by lra; apply abs_mul_le; auto).
  assert (T4 : Rabs (rn (rn (2 * a1) * x) - 2 * 0.18 * x) <= 53 * u) by (apply (mule (2 * 0.18) x _ x 9 0 0.36 4); try bb; [apply exact_e|apply abs_const; lra]).
  assert (B4 : Rabs (2 * 0.18 * x) <= 1.44) by (replace 1.44 with (0.36 * 4) by lra; apply abs_mul_le; [apply abs_const; lra|auto]).
  assert (T5 : Rabs (rn (rn (rn (2 * a1) * x) * fcos (ar A) q1) - 2 * 0.18 * x * cos th) <= 120 * u) by (apply (mule (2 * 0.18 * x) (cos th) _ _ 53 5 1.44 1); bb).
  assert (B5 : Rabs (2 * 0.18 * x * cos th) <= 1.44) by (replace 1.44 with (1.44 * 1) by lra; apply abs_mul_le; auto).
  assert (D1 : Rabs (rn (fnum x y z - rn (rn (rn (2 * a1) * fsin (ar A) q1) * y)) - (0.18 ^ 2 - 0.6 ^ 2 - 0.62 ^ 2 + x ^ 2 + y ^ 2 + z ^ 2 - 2 * 0.18 * sin th * y)) <= 481 * u) by (apply (sube _ _ _ _ 300 128 48 1.44); bb).
  assert (B6 : Rabs (0.18 ^ 2 - 0.6 ^ 2 - 0.62 ^ 2 + x ^ 2 + y ^ 2 + z ^ 2 - 2 * 0.18 * sin th * y) <= 50) by (apply Rabs_le_inv in BN; apply Rabs_le_inv in B3; apply Rabs_le; lra).
  split; [apply (sube _ _ _ _ 481 120 50 1.44); bb|]. unfold top. apply Rabs_le_inv in B6. apply Rabs_le_inv in B5. apply Rabs_le; lra.
Qed.
Lemma c3_e x y z q1 th k : k ^ 2 = 1 -> Rabs x <= 4 -> Rabs y <= 4 -> Rabs z <= 4 -> Rabs (q1 - th) <= 4 * u ->
  let L := sqrt (x ^ 2 + y ^ 2) in x = k * L * cos th -> y = k * L * sin th ->
  exists c, rdiv (ftop x y z q1) fden = Ok c /\ Rabs (rn c - elbow_cos 0.6 0.62 (k * L - 0.18) z) <= 3500 * u.
Proof.
  intros Hk Bx By Bz Bq L Hx Hy. destruct (ftop_e x y z q1 th Bx By Bz Bq) as [T BT]. cbv zeta in T, BT. pose proof fden_e as D.
  set (top := 0.18 ^ 2 - 0.6 ^ 2 - 0.62 ^ 2 + x ^ 2 + y ^ 2 + z ^ 2 - 2 * 0.18 * sin th * y - 2 * 0.18 * x * cos th) in *.
  assert (Dd : 0.743 <= fden <= 0.745) by (apply Rabs_le_inv in D; nra).
  unfold rdiv. destruct (Req_EM_T fden 0) as [Z|_]; [lra|]. eexists. split; [reflexivity|].
  assert (E : elbow_cos 0.6 0.62 (k * L - 0.18) z = top / 0.744).
  { unfold elbow_cos. assert (LL : L ^ 2 = x ^ 2 + y ^ 2) by apply sqrt_sum_sq. pose proof (sin2_cos2 th) as T1. unfold Rsqr in T1.
    assert (K : sin th * y + x * cos th = k * L). { transitivity (k * L * (sin th * sin th + cos th * cos th)); [rewrite Hx at 1; rewrite Hy at 1; ring|rewrite T1; ring]. }
    assert (N : (k * L - 0.18) ^ 2 + z ^ 2 - 0.6 ^ 2 - 0.62 ^ 2 = top).
    { unfold top. assert (N1 : (k * L) ^ 2 = x ^ 2 + y ^ 2) by (rewrite Rpow_mult_distr, Hk, LL; ring).
      replace ((k * L - 0.18) ^ 2) with ((k * L) ^ 2 - 2 * 0.18 * (k * L) + 0.18 ^ 2) by field. rewrite N1, <- K. field. }
    rewrite N. replace (2 * 0.6 * 0.62) with 0.744 by lra. reflexivity. }
  rewrite E. set (cc := top / 0.744). assert (BC : Rabs cc <= 70).
  { unfold cc. eapply Rle_trans; [apply (abs_div_le top 0.744 52 0.744); lra|]. lra. }
  assert (Q : Rabs (ftop x y z q1 / fden - cc) <= 3250 * u).
  { replace (ftop x y z q1 / fden - cc) with (((ftop x y z q1 - top) - cc * (fden - 0.744)) / fden) by (unfold cc; field; lra).
    eapply Rle_trans; [apply (abs_div_le _ _ (656 * u + 70 * (24 * u)) 0.743); [|lra]|].
    - unfold Rminus at 1. eapply Rle_trans; [apply Rabs_triang|]. rewrite Rabs_Ropp. apply Rplus_le_compat; [auto|]. apply abs_mul_le; auto.
    - apply Rmult_le_reg_r with 0.743; [lra|]. unfold Rdiv. rewrite Rmult_assoc, Rinv_l by lra. lra. }
  pose proof (abs_le_add _ _ _ _ Q BC) as BQ. assert (BQ' : Rabs (ftop x y z q1 / fden) <= 71) by (assert (3250 * u <= 1) by nra; lra).
  pose proof (rn_e A u eta g h OK Hu He _ _ BQ') as RR. eapply Rle_trans; [eapply abs3; [exact RR|exact Q]|]. lra.
Qed.

(** ** The test of the cosine and the two elbow angles *)
Lemma tol_e : Rabs (rn (1 + rn tol) - (1 + tol)) <= 6 * u /\ Rabs (rn (1 - rn tol) - (1 - tol)) <= 6 * u.
Proof.
  assert (B : Rabs tol <= 0.1) by (unfold tol; apply abs_const; lra).
  assert (T : Rabs (rn tol - tol) <= 1.1 * u) by (eapply Rle_trans; [apply (rn_e A u eta g h OK Hu He _ _ B)|lra]).
  split; [apply (adde 1 tol 1 (rn tol) 0 1.1 1 0.1)|apply (sube 1 tol 1 (rn tol) 0 1.1 1 0.1)]; try bb; solve [apply exact_e|apply abs_const; lra].
Qed.
Lemma felbow_e c3f c3 e : 3500 * u <= e <= 1e-7 -> Rabs (c3f - c3) <= e ->
  match felbow A c3f with
  | None => 1 + 8e-7 < Rabs c3
  | Some c => (c = c3f /\ Rabs c3f <= 1 - tol + 6 * u) \/ ((c = 1 \/ c = -1) /\ Rabs (c - c3) <= tol + 2 * e)
  end.
Proof.
  intros He' H. destruct tol_e as [T1 T2]. unfold felbow. set (up := rn (1 + rn tol)) in *. set (lo := rn (1 - rn tol)) in *.
  apply Rabs_le_inv in T1. apply Rabs_le_inv in T2. apply Rabs_le_inv in H. assert (TT : tol = 1e-6) by (unfold tol; lra).
  repeat match goal with |- context [Rlt_dec ?a ?b] => destruct (Rlt_dec a b) end; cbn.
  - rewrite abs_ge; lra.
  - rewrite Rabs_left; lra.
  - right. unfold sgn. destruct (Rlt_dec 0 c3f); [|lra]. split; [auto|]. apply Rabs_le. lra.
  - right. unfold sgn. destruct (Rlt_dec 0 c3f); [lra|]. destruct (Rlt_dec c3f 0); [|lra]. split; [auto|]. apply Rabs_le. lra.
  - left. split; auto. apply Rabs_le. lra.
Qed.
(** the angles of c and s with c^2 + s^2 near 1, for both signs of s *)
Lemma two_angles c s e : 0 <= e <= 0.5 -> Rabs (c ^ 2 + s ^ 2 - 1) <= e ->
  exists fa fb, cos fb = cos fa /\ sin fb = - sin fa /\ Rabs (fatan2 A s c - fa) <= 4 * u /\ Rabs (fatan2 A (- s) c - fb) <= 4 * u /\ Rabs (c - cos fa) <= e /\ Rabs (s - sin fa) <= e.
Proof.
  intros E H. destruct (io_atan _ _ _ _ _ OK s c) as (fa & A1 & A2 & A3). destruct (io_atan _ _ _ _ _ OK (- s) c) as (fb & B1 & B2 & B3).
  replace ((- s) ^ 2) with (s ^ 2) in B1, B2 by ring. set (r := sqrt (c ^ 2 + s ^ 2)) in *. assert (R2 : r ^ 2 = c ^ 2 + s ^ 2) by apply sqrt_sum_sq. assert (R0 : 0 <= r) by apply sqrt_pos.
  rewrite <- R2 in H. apply Rabs_le_inv in H. assert (RP : 0 < r) by nra.
  assert (R1 : Rabs (r - 1) <= e) by (apply Rabs_le; split; nra).
  destruct (abs_1 fa) as [C1 S1].
  exists fa, fb. split; [apply (Rmult_eq_reg_l r); lra|]. split; [apply (Rmult_eq_reg_l r); lra|]. split; auto. split; auto.
  split.
  - replace (c - cos fa) with ((r - 1) * cos fa) by lra. rewrite <- (Rmult_1_r e). apply abs_mul_le; auto.
  - replace (s - sin fa) with ((r - 1) * sin fa) by lra. rewrite <- (Rmult_1_r e). apply abs_mul_le; auto.
Qed.
Lemma q3_e c3f c3 e c : 3500 * u <= e <= 1e-7 -> Rabs (c3f - c3) <= e -> felbow A c3f = Some c ->
  let s3 := fsqrt A (rn (1 - fsq A c)) in
  exists fa fb, cos fb = cos fa /\ sin fb = - sin fa /\ Rabs (fatan2 A s3 c - fa) <= 4 * u /\ Rabs (fatan2 A (- s3) c - fb) <= 4 * u /\
    ((Rabs (cos fa - c3) <= 2 * e /\ 1.2e-3 <= sin fa) \/ (Rabs (cos fa - c3) <= 1.3e-6 /\ Rabs (sin fa) <= u)).
Proof.
  intros He' H HE s3. pose proof (felbow_e c3f c3 e He' H) as F. rewrite HE in F. assert (TT : tol = 1e-6) by (unfold tol; lra).
  pose proof (eta_k u eta Hu He) as Ek.
  destruct F as [[-> B]|[Hc B]].
  - apply Rabs_le_inv in B. assert (C2 : c3f ^ 2 <= 1 - 1.9e-6) by nra. pose proof (pow2_ge_0 c3f) as C0.
    pose proof (io_sq _ _ _ _ _ OK c3f) as Q. assert (Q' : Rabs (fsq A c3f - c3f ^ 2) <= 3 * u) by (assert (u * c3f ^ 2 <= u * 1) by (apply Rmult_le_compat_l; lra); lra).
    assert (BW : Rabs (1 - fsq A c3f) <= 1.5) by (apply Rabs_le_inv in Q'; apply Rabs_le; lra).
    pose proof (rn_e A u eta g h OK Hu He _ _ BW) as W. set (w := rn (1 - fsq A c3f)) in *.
    assert (W' : Rabs (w - (1 - c3f ^ 2)) <= 6 * u). { eapply Rle_trans; [eapply abs3; [exact W|]|]. { replace (1 - fsq A c3f - (1 - c3f ^ 2)) with (- (fsq A c3f - c3f ^ 2)) by ring. rewrite Rabs_Ropp. exact Q'. } lra. }
    apply Rabs_le_inv in W'. assert (W0 : 0 <= w) by lra.
    pose proof (io_sqrt _ _ _ _ _ OK w W0) as Sq. fold s3 in Sq. set (p := sqrt w) in *. assert (P0 : 0 <= p) by apply sqrt_pos. assert (Pw : p * p = w) by (apply sqrt_sqrt; auto).
    assert (P1 : p <= 1.01) by (apply Rsqr_incr_0_var; [unfold Rsqr; lra|lra]). assert (P2 : 1.3e-3 <= p) by (apply Rsqr_incr_0_var; [unfold Rsqr; lra|lra]).
    assert (SP : Rabs (s3 - p) <= 1.1 * u) by (assert (u * p <= u * 1.01) by (apply Rmult_le_compat_l; lra); lra).
    assert (S2 : Rabs (s3 ^ 2 - w) <= 3 * u).
    { rewrite <- Pw. replace (s3 ^ 2 - p * p) with ((s3 - p) * (s3 + p)) by ring. eapply Rle_trans; [apply (abs_mul_le _ _ (1.1 * u) 2.1); auto|lra]. apply Rabs_le_inv in SP. apply Rabs_le. lra. }
    apply Rabs_le_inv in S2.
    destruct (two_angles c3f s3 (9 * u)) as (fa & fb & T1 & T2 & T3 & T4 & T5 & T6); [lra|apply Rabs_le; lra|].
    exists fa, fb. repeat (split; [assumption|]). left. apply Rabs_le_inv in T5. apply Rabs_le_inv in T6. apply Rabs_le_inv in H. apply Rabs_le_inv in SP. split; [apply Rabs_le; lra|lra].
  - assert (W : rn (1 - fsq A c) = 0) by (destruct (io_one _ _ _ _ _ OK); destruct Hc as [-> | ->]; auto).
    pose proof (io_sqrt _ _ _ _ _ OK 0 ltac:(lra)) as Sq. unfold s3. rewrite W. rewrite sqrt_0 in Sq. set (s := fsqrt A 0) in *. apply Rabs_le_inv in Sq.
    assert (S2 : Rabs (s ^ 2) <= u / 1000) by (apply Rabs_le; split; nra). pose proof S2 as S2'. apply Rabs_le_inv in S2'.
    assert (C2 : c ^ 2 = 1) by (destruct Hc as [-> | ->]; ring).
    destruct (two_angles c s (u / 100)) as (fa & fb & T1 & T2 & T3 & T4 & T5 & T6); [lra|rewrite C2; apply Rabs_le; lra|].
    exists fa, fb. repeat (split; [assumption|]). right. apply Rabs_le_inv in T5. apply Rabs_le_inv in T6. apply Rabs_le_inv in B. split; apply Rabs_le; lra.
Qed.

(** ** The shoulder angle *)
Lemma num_e b w z Aa b' w' A' : Rabs (b' - b) <= 12 * u -> Rabs (w' - w) <= 44 * u -> Rabs (A' - Aa) <= 19 * u -> Rabs b <= 0.62 -> Rabs w <= 6.2 -> Rabs Aa <= 1.22 -> Rabs z <= 4 ->
  Rabs (rn (rn (b' * w') + rn (z * A')) - (b * w + z * Aa)) <= 320 * u.
Proof.
  intros Hb Hw HA Bb Bw BA Bz.
  assert (P1 : Rabs (rn (b' * w') - b * w) <= 127 * u) by (apply (mule _ _ _ _ 12 44 0.62 6.2); bb).
  assert (P2 : Rabs (rn (z * A') - z * Aa) <= 89 * u) by (apply (mule _ _ _ _ 0 19 4 1.22); try bb; apply exact_e).
  pose proof (abs_mul_le _ _ _ _ Bb Bw). pose proof (abs_mul_le _ _ _ _ Bz BA). apply (adde _ _ _ _ 127 89 3.9 4.9); bb.
Qed.
Lemma den_e b w z Aa b' w' A' : Rabs (b' - b) <= 12 * u -> Rabs (w' - w) <= 44 * u -> Rabs (A' - Aa) <= 19 * u -> Rabs b <= 0.62 -> Rabs w <= 6.2 -> Rabs Aa <= 1.22 -> Rabs z <= 4 ->
  Rabs (rn (rn (b' * z) + rn (w' * A')) - (b * z + w * Aa)) <= 320 * u /\ Rabs (rn (rn (b' * z) - rn (w' * A')) - (b * z - w * Aa)) <= 320 * u.
Proof.
  intros Hb Hw HA Bb Bw BA Bz.
  assert (P1 : Rabs (rn (b' * z) - b * z) <= 70 * u) by (apply (mule _ _ _ _ 12 0 0.62 4); try bb; apply exact_e).
  assert (P2 : Rabs (rn (w' * A') - w * Aa) <= 233 * u) by (apply (mule _ _ _ _ 44 19 6.2 1.22); bb).
  pose proof (abs_mul_le _ _ _ _ Bb Bz). pose proof (abs_mul_le _ _ _ _ Bw BA). split; [apply (adde _ _ _ _ 70 233 2.5 7.6)|apply (sube _ _ _ _ 70 233 2.5 7.6)]; bb.
Qed.
(** a row of the arm: angles near exact ones whose position is near the target *)
Definition arm_row (p : vec3) (q : list R) : Prop := exists q1 q2 q3 th ps ph, q = [q1; q2; q3] /\
  Rabs (q1 - th) <= 4 * u /\ Rabs (q2 - ps) <= 4 * u /\ Rabs (q3 - ph) <= 4 * u /\ Rabs q3 <= 3.2 /\
  ((1.2e-3 <= Rabs (sin ph) /\ len (vsub (arm_pos 0.18 0.6 0.62 th ps ph) p) <= 7.6e6 * u) \/ (Rabs (sin ph) <= u /\ len (vsub (arm_pos 0.18 0.6 0.62 th ps ph) p) <= 4e-5)).
Lemma row_e x y z l q1 th q3 ph N' D' dc : x = l * cos th -> y = l * sin th -> Rabs (q1 - th) <= 4 * u -> Rabs (q3 - ph) <= 4 * u -> Rabs q3 <= 3.2 -> let r := l - 0.18 in
  Rabs (cos ph - elbow_cos 0.6 0.62 r z) <= dc -> (dc <= 7000 * u /\ 1.2e-3 <= Rabs (sin ph)) \/ (dc <= 1.3e-6 /\ Rabs (sin ph) <= u) ->
  Rabs (N' - (z * (0.6 + 0.62 * cos ph) - r * (0.62 * sin ph))) <= 320 * u -> Rabs (D' - (r * (0.6 + 0.62 * cos ph) + z * (0.62 * sin ph))) <= 320 * u ->
  arm_row (V3 x y z) [q1; fatan2 A N' D'; q3].
Proof.
  intros Hx Hy H1 H3 B3 r Hc Hd HN HD. destruct (io_atan _ _ _ _ _ OK N' D') as (ps & I1 & I2 & I3). exists q1, (fatan2 A N' D'), q3, th, ps, ph. do 5 (split; [auto|]).
  assert (dc <= 2.6e-6) by lra.
  pose proof (arm_pos_e x y z l th ps ph D' N' (320 * u) dc Hx Hy Hc H ltac:(lra) HD HN I1 I2) as P. destruct Hd as [[D1 D2]|[D1 D2]]; [left|right]; split; auto; lra.
Qed.
Lemma farm2_q3_e x y z q1 th k : k ^ 2 = 1 -> Rabs x <= 4 -> Rabs y <= 4 -> Rabs z <= 4 -> Rabs (q1 - th) <= 4 * u ->
  let L := sqrt (x ^ 2 + y ^ 2) in x = k * L * cos th -> y = k * L * sin th ->
  let c3 := elbow_cos 0.6 0.62 (k * L - 0.18) z in
  (farm2_q3 A (fnum x y z) fden a1 x y q1 = Ok None /\ 1 + 8e-7 < Rabs c3) \/
  exists q3a q3b fa fb dc, farm2_q3 A (fnum x y z) fden a1 x y q1 = Ok (Some (q3a, q3b)) /\ cos fb = cos fa /\ sin fb = - sin fa /\ Rabs (q3a - fa) <= 4 * u /\ Rabs (q3b - fb) <= 4 * u /\
    Rabs q3a <= 3.2 /\ Rabs q3b <= 3.2 /\ Rabs (cos fa - c3) <= dc /\ ((dc <= 7000 * u /\ 1.2e-3 <= Rabs (sin fa)) \/ (dc <= 1.3e-6 /\ Rabs (sin fa) <= u)).
Proof.
  intros Hk Bx By Bz Bq L Hx Hy c3. destruct (c3_e x y z q1 th k Hk Bx By Bz Bq Hx Hy) as (c & E & H). fold L c3 in H.
  unfold farm2_q3. change (rn (rn (fnum x y z - rn (rn (rn (2 * a1) * fsin (ar A) q1) * y)) - rn (rn (rn (2 * a1) * x) * fcos (ar A) q1))) with (ftop x y z q1).
  rewrite E. cbn [bind]. pose proof (felbow_e (rn c) c3 (3500 * u) ltac:(lra) H) as F. destruct (felbow A (rn c)) as [cc|] eqn:EF; [right|left; split; [reflexivity|exact F]].
  destruct (q3_e (rn c) c3 (3500 * u) cc ltac:(lra) H EF) as (fa & fb & Q1 & Q2 & Q3 & Q4 & Q5).
  assert (G : exists dc, Rabs (cos fa - c3) <= dc /\ ((dc <= 7000 * u /\ 1.2e-3 <= Rabs (sin fa)) \/ (dc <= 1.3e-6 /\ Rabs (sin fa) <= u))).
  { destruct Q5 as [[G1 G2]|[G1 G2]]; [exists (7000 * u)|exists 1.3e-6]; (split; [lra|]); [left|right]; (split; [lra|]); auto. rewrite abs_ge; lra. }
  destruct G as (dc & G1 & G2). do 5 eexists. split; [reflexivity|]. split; [exact Q1|]. split; [exact Q2|]. split; [exact Q3|]. split; [exact Q4|].
  split; [apply (io_range _ _ _ _ _ OK)|]. split; [apply (io_range _ _ _ _ _ OK)|]. split; [exact G1|exact G2].
Qed.
Lemma vec_eta v : V3 (vx v) (vy v) (vz v) = v. Proof. destruct v; reflexivity. Qed.
Lemma farm2_e r T : link_a r 0 = Ok a1 -> link_a r 1 = Ok a2 -> link_a r 2 = Ok a3 -> Rabs (vx (pos T)) <= 4 -> Rabs (vy (pos T)) <= 4 -> Rabs (vz (pos T)) <= 4 ->
  let L := lxy (pos T) in
  (farm2_ik A r T = Ok IkFail /\ 1 + 8e-7 < Rabs (elbow_cos 0.6 0.62 (L - 0.18) (vz (pos T))) /\ 1 + 8e-7 < Rabs (elbow_cos 0.6 0.62 (- L - 0.18) (vz (pos T)))) \/
  exists qs, farm2_ik A r T = Ok (IkOk qs) /\ (length qs = 2 \/ length qs = 4)%nat /\ Forall (arm_row (pos T)) qs.
Proof.
  intros K1 K2 K3 Bx By Bz L. rewrite <- (vec_eta (pos T)). set (x := vx (pos T)) in *. set (y := vy (pos T)) in *. set (z := vz (pos T)) in *. change L with (sqrt (x ^ 2 + y ^ 2)). clear L. set (L := sqrt (x ^ 2 + y ^ 2)).
  unfold farm2_ik. rewrite K1, K2, K3. cbn [bind]. fold x y z. change (rn (rn (rn (rn (rn (fsq A a1 - fsq A a2) - fsq A a3) + fsq A x) + fsq A y) + fsq A z)) with (fnum x y z). change (rn (rn (2 * a2) * a3)) with fden.
  destruct (io_atan _ _ _ _ _ OK y x) as (th & P1 & P2 & P3). destruct (io_atan _ _ _ _ _ OK (- y) (- x)) as (th' & N1 & N2 & N3).
  replace ((- x) ^ 2) with (x ^ 2) in * by ring. replace ((- y) ^ 2) with (y ^ 2) in * by ring. fold L in P1, P2, N1, N2.
  assert (PX : x = 1 * L * cos th) by lra. assert (PY : y = 1 * L * sin th) by lra. assert (NX : x = -1 * L * cos th') by lra. assert (NY : y = -1 * L * sin th') by lra.
  pose proof (farm2_q3_e x y z (fatan2 A y x) th 1 ltac:(ring) Bx By Bz P3 PX PY) as QP. pose proof (farm2_q3_e x y z (fatan2 A (- y) (- x)) th' (-1) ltac:(ring) Bx By Bz N3 NX NY) as QN. cbv zeta in QP, QN. fold L in QP, QN.
  replace (1 * L - 0.18) with (L - 0.18) in QP by ring. replace (-1 * L - 0.18) with (- L - 0.18) in QN by ring.
  pose proof (hyp_e A u eta g h OK Hu He x y Bx By) as HL. fold L in HL. set (L' := fsqrt A (rn (fsq A x + fsq A y))) in *.
  assert (L0 : 0 <= L) by apply sqrt_pos.
  assert (LB : L <= 5.7). { apply hyp_le; [lra|]. apply abs_sq in Bx. apply abs_sq in By. rewrite abs_ge in Bx by apply pow2_ge_0. rewrite abs_ge in By by apply pow2_ge_0. lra. }
  assert (WP : Rabs (rn (L' - a1) - (L - 0.18)) <= 44 * u) by (apply (sube _ _ _ _ 32 2 5.7 0.18); try bb; apply abs_const; lra).
  assert (WN : Rabs (rn (L' + a1) - (L + 0.18)) <= 44 * u) by (apply (adde _ _ _ _ 32 2 5.7 0.18); try bb; apply abs_const; lra).
  assert (BP : Rabs (L - 0.18) <= 6.2) by (apply Rabs_le; lra). assert (BN : Rabs (L + 0.18) <= 6.2) by (apply Rabs_le; lra).
  assert (TR : forall q3a q3b fa fb, cos fb = cos fa -> Rabs (q3a - fa) <= 4 * u -> Rabs (q3b - fb) <= 4 * u ->
    Rabs (rn (a3 * fsin (ar A) q3a) - 0.62 * sin fa) <= 12 * u /\ Rabs (rn (- a3 * fsin (ar A) q3a) - Ropp 0.62 * sin fa) <= 12 * u /\ Rabs (rn (a2 + rn (a3 * fcos (ar A) q3b)) - (0.6 + 0.62 * cos fa)) <= 19 * u /\
    Rabs (0.62 * sin fa) <= 0.62 /\ Rabs (Ropp 0.62 * sin fa) <= 0.62 /\ Rabs (0.6 + 0.62 * cos fa) <= 1.22).
  { intros q3a q3b fa fb CC HA HB. destruct (abs_1 fa) as [C1 S1].
    assert (Sn : Rabs (fsin (ar A) q3a - sin fa) <= 5 * u) by (replace 5 with (4 + 1) by lra; apply (sin_e A u eta g h OK); auto).
    assert (Cn : Rabs (fcos (ar A) q3b - cos fa) <= 5 * u) by (rewrite <- CC; replace 5 with (4 + 1) by lra; apply (cos_e A u eta g h OK); auto).
    assert (B1 : Rabs (0.62 * sin fa) <= 0.62) by (eapply Rle_trans; [apply (abs_mul_le _ _ 0.62 1); [apply abs_const; lra|auto]|lra]).
    assert (B2 : Rabs (0.62 * cos fa) <= 0.62) by (eapply Rle_trans; [apply (abs_mul_le _ _ 0.62 1); [apply abs_const; lra|auto]|lra]).
    assert (M1 : Rabs (rn (a3 * fsin (ar A) q3a) - 0.62 * sin fa) <= 12 * u) by (apply (mule _ _ _ _ 2 5 0.62 1); try bb; apply abs_const; lra).
    assert (M2 : Rabs (rn (- a3 * fsin (ar A) q3a) - Ropp 0.62 * sin fa) <= 12 * u).
    { apply (mule _ _ _ _ 2 5 0.62 1); try bb; [apply (opp_e u 0.62 a3 2); auto|rewrite Rabs_Ropp; apply abs_const; lra]. }
    assert (M3 : Rabs (rn (a3 * fcos (ar A) q3b) - 0.62 * cos fa) <= 12 * u) by (apply (mule _ _ _ _ 2 5 0.62 1); try bb; apply abs_const; lra).
    split; [auto|]. split; [auto|]. split; [apply (adde _ _ _ _ 2 12 0.6 0.62); try bb; apply abs_const; lra|]. split; [auto|]. split; [replace (Ropp 0.62 * sin fa) with (- (0.62 * sin fa)) by ring; rewrite Rabs_Ropp; auto|].
    apply Rabs_le_inv in B2. apply Rabs_le. lra. }
  assert (SP : forall q3a q3b fa fb dc, cos fb = cos fa -> sin fb = - sin fa -> Rabs (q3a - fa) <= 4 * u -> Rabs (q3b - fb) <= 4 * u -> Rabs q3a <= 3.2 -> Rabs q3b <= 3.2 -> Rabs (cos fa - elbow_cos 0.6 0.62 (L - 0.18) z) <= dc ->
    ((dc <= 7000 * u /\ 1.2e-3 <= Rabs (sin fa)) \/ (dc <= 1.3e-6 /\ Rabs (sin fa) <= u)) ->
    let c3 := fcos (ar A) q3b in let s3 := fsin (ar A) q3a in
    arm_row (V3 x y z) [fatan2 A y x; fatan2 A (rn (rn (rn (- a3 * s3) * rn (L' - a1)) + rn (z * rn (a2 + rn (a3 * c3))))) (rn (rn (rn (a3 * s3) * z) + rn (rn (L' - a1) * rn (a2 + rn (a3 * c3))))); q3a] /\
    arm_row (V3 x y z) [fatan2 A y x; fatan2 A (rn (rn (rn (a3 * s3) * rn (L' - a1)) + rn (z * rn (a2 + rn (a3 * c3))))) (rn (rn (rn (- a3 * s3) * z) + rn (rn (L' - a1) * rn (a2 + rn (a3 * c3))))); q3b]).
  { intros q3a q3b fa fb dc CC SS HA HB RA RB Hc Hd c3 s3. destruct (TR q3a q3b fa fb CC HA HB) as (T1 & T2 & T3 & T4 & T5 & T6). fold s3 c3 in T1, T2, T3. split.
    - apply (row_e x y z L (fatan2 A y x) th q3a fa _ _ dc); auto; try lra.
      + replace (z * (0.6 + 0.62 * cos fa) - (L - 0.18) * (0.62 * sin fa)) with (Ropp 0.62 * sin fa * (L - 0.18) + z * (0.6 + 0.62 * cos fa)) by ring. apply num_e; auto.
      + replace ((L - 0.18) * (0.6 + 0.62 * cos fa) + z * (0.62 * sin fa)) with (0.62 * sin fa * z + (L - 0.18) * (0.6 + 0.62 * cos fa)) by ring. apply den_e; auto.
    - apply (row_e x y z L (fatan2 A y x) th q3b fb _ _ dc); auto; try lra.
      + rewrite CC. auto.
      + rewrite SS, Rabs_Ropp. auto.
      + rewrite CC, SS. replace (z * (0.6 + 0.62 * cos fa) - (L - 0.18) * (0.62 * - sin fa)) with (0.62 * sin fa * (L - 0.18) + z * (0.6 + 0.62 * cos fa)) by ring. apply num_e; auto.
      + rewrite CC, SS. replace ((L - 0.18) * (0.6 + 0.62 * cos fa) + z * (0.62 * - sin fa)) with (Ropp 0.62 * sin fa * z + (L - 0.18) * (0.6 + 0.62 * cos fa)) by ring. apply den_e; auto. }
  assert (SN : forall q3a q3b fa fb dc, cos fb = cos fa -> sin fb = - sin fa -> Rabs (q3a - fa) <= 4 * u -> Rabs (q3b - fb) <= 4 * u -> Rabs q3a <= 3.2 -> Rabs q3b <= 3.2 -> Rabs (cos fa - elbow_cos 0.6 0.62 (- L - 0.18) z) <= dc ->
    ((dc <= 7000 * u /\ 1.2e-3 <= Rabs (sin fa)) \/ (dc <= 1.3e-6 /\ Rabs (sin fa) <= u)) ->
    let c3 := fcos (ar A) q3b in let s3 := fsin (ar A) q3a in
    arm_row (V3 x y z) [fatan2 A (- y) (- x); fatan2 A (rn (rn (rn (a3 * s3) * rn (L' + a1)) + rn (z * rn (a2 + rn (a3 * c3))))) (rn (rn (rn (a3 * s3) * z) - rn (rn (L' + a1) * rn (a2 + rn (a3 * c3))))); q3a] /\
    arm_row (V3 x y z) [fatan2 A (- y) (- x); fatan2 A (rn (rn (rn (- a3 * s3) * rn (L' + a1)) + rn (z * rn (a2 + rn (a3 * c3))))) (rn (rn (rn (- a3 * s3) * z) - rn (rn (L' + a1) * rn (a2 + rn (a3 * c3))))); q3b]).
  { intros q3a q3b fa fb dc CC SS HA HB RA RB Hc Hd c3 s3. destruct (TR q3a q3b fa fb CC HA HB) as (T1 & T2 & T3 & T4 & T5 & T6). fold s3 c3 in T1, T2, T3. split.
    - apply (row_e x y z (- L) (fatan2 A (- y) (- x)) th' q3a fa _ _ dc); auto; try lra.
      + replace (z * (0.6 + 0.62 * cos fa) - (- L - 0.18) * (0.62 * sin fa)) with (0.62 * sin fa * (L + 0.18) + z * (0.6 + 0.62 * cos fa)) by ring. apply num_e; auto.
      + replace ((- L - 0.18) * (0.6 + 0.62 * cos fa) + z * (0.62 * sin fa)) with (0.62 * sin fa * z - (L + 0.18) * (0.6 + 0.62 * cos fa)) by ring. apply den_e; auto.
    - apply (row_e x y z (- L) (fatan2 A (- y) (- x)) th' q3b fb _ _ dc); auto; try lra.
      + rewrite CC. auto.
      + rewrite SS, Rabs_Ropp. auto.
      + rewrite CC, SS. replace (z * (0.6 + 0.62 * cos fa) - (- L - 0.18) * (0.62 * - sin fa)) with (Ropp 0.62 * sin fa * (L + 0.18) + z * (0.6 + 0.62 * cos fa)) by ring. apply num_e; auto.
      + rewrite CC, SS. replace ((- L - 0.18) * (0.6 + 0.62 * cos fa) + z * (0.62 * - sin fa)) with (Ropp 0.62 * sin fa * z - (L + 0.18) * (0.6 + 0.62 * cos fa)) by ring. apply den_e; auto. }
  destruct QP as [[EP FP]|(q3a & q3b & fa & fb & dc & EP & P4 & P5 & P6 & P7 & P8 & P9 & P10 & P11)], QN as [[EN FN]|(r3a & r3b & ga & gb & ec & EN & N4 & N5 & N6 & N7 & N8 & N9 & N10 & N11)]; rewrite EP, EN; cbn [bind app].
  - left. auto.
  - right. destruct (SN r3a r3b ga gb ec N4 N5 N6 N7 N8 N9 N10 N11) as [R1 R2]. eexists. split; [reflexivity|]. split; [left; reflexivity|]. constructor; [exact R1|constructor; [exact R2|constructor]].
  - right. destruct (SP q3a q3b fa fb dc P4 P5 P6 P7 P8 P9 P10 P11) as [R1 R2]. eexists. split; [reflexivity|]. split; [left; reflexivity|]. constructor; [exact R1|constructor; [exact R2|constructor]].
  - right. destruct (SP q3a q3b fa fb dc P4 P5 P6 P7 P8 P9 P10 P11) as [R1 R2]. destruct (SN r3a r3b ga gb ec N4 N5 N6 N7 N8 N9 N10 N11) as [R3 R4]. eexists. split; [reflexivity|]. split; [right; reflexivity|].
    constructor; [exact R1|constructor; [exact R2|constructor; [exact R3|constructor; [exact R4|constructor]]]].
Qed.
End Arm.
