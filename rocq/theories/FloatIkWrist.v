(** * The wrist of the Kuka in floating point: error of the orientation. *)
From Coq Require Import Reals Lra Lia Psatz List Bool Arith ZArith.
From Verif Require Import PyBase Mat Util UtilProofs Geometry GeometryProofs Robot RobotProofs RobotForms Ik IkProofs KukaProofs PumaProofs Motion FloatFk FloatFkProofs FloatIk FloatIkProofs FloatIkArm.
Import ListNotations.
Local Open Scope R_scope.

(** every entry within e *)
Definition mnear (e : R) (X Y : mat3) : Prop :=
  (Rabs (m00 Y - m00 X) <= e /\ Rabs (m01 Y - m01 X) <= e /\ Rabs (m02 Y - m02 X) <= e) /\
  (Rabs (m10 Y - m10 X) <= e /\ Rabs (m11 Y - m11 X) <= e /\ Rabs (m12 Y - m12 X) <= e) /\
  (Rabs (m20 Y - m20 X) <= e /\ Rabs (m21 Y - m21 X) <= e /\ Rabs (m22 Y - m22 X) <= e).
Lemma mnear_le e e' X Y : e <= e' -> mnear e X Y -> mnear e' X Y.
Proof. unfold mnear. intros. intuition lra. Qed.
(** every entry of a rotation is at most 1 *)
Definition mle (b : R) (X : mat3) : Prop :=
  (Rabs (m00 X) <= b /\ Rabs (m01 X) <= b /\ Rabs (m02 X) <= b) /\ (Rabs (m10 X) <= b /\ Rabs (m11 X) <= b /\ Rabs (m12 X) <= b) /\ (Rabs (m20 X) <= b /\ Rabs (m21 X) <= b /\ Rabs (m22 X) <= b).
Lemma rotation_mle X : rotation X -> mle 1 X.
Proof.
  intros H. destruct (col_len X H) as (L0 & L1 & L2). pose proof (len_comp (col0 X)) as (a & b & c). pose proof (len_comp (col1 X)) as (a' & b' & c'). pose proof (len_comp (col2 X)) as (a'' & b'' & c'').
  unfold col0, col1, col2 in *. cbn [vx vy vz] in *. unfold mle. intuition lra.
Qed.
Lemma mnear_mle e b X Y : mnear e X Y -> mle b X -> mle (e + b) Y.
Proof. unfold mnear, mle. intros (a & b' & c) (d & f & k). repeat split; eapply abs_le_add; intuition eauto. Qed.

(** ** Directions *)
Lemma dir_near x y x' y' r t t' d : 0 <= r -> x = r * cos t -> y = r * sin t -> x' = sqrt (x' ^ 2 + y' ^ 2) * cos t' -> y' = sqrt (x' ^ 2 + y' ^ 2) * sin t' ->
  Rabs (x' - x) <= d -> Rabs (y' - y) <= d -> r * Rabs (cos t' - cos t) <= 3 * d /\ r * Rabs (sin t' - sin t) <= 3 * d.
Proof.
  intros Hr Hx Hy Hx' Hy' Dx Dy. pose proof (hyp_lip x y x' y' d Dx Dy) as HL. set (r' := sqrt (x' ^ 2 + y' ^ 2)) in *.
  assert (E : sqrt (x ^ 2 + y ^ 2) = r).
  { rewrite <- (sqrt_pow2 r Hr). f_equal. rewrite Hx, Hy. pose proof (sin2_cos2 t) as T. unfold Rsqr in T. transitivity ((sin t * sin t + cos t * cos t) * r ^ 2); [ring|rewrite T; ring]. }
  rewrite E in HL. destruct (abs_1 t') as [C S].
  assert (K : forall a a' c c', a = r * c -> a' = r' * c' -> Rabs (a' - a) <= d -> Rabs c' <= 1 -> r * Rabs (c' - c) <= 3 * d).
  { intros a a' c c' -> -> D B. rewrite <- (abs_ge r) at 1 by auto. rewrite <- Rabs_mult. replace (r * (c' - c)) with (- ((r' - r) * c') + (r' * c' - r * c)) by ring.
    eapply Rle_trans; [apply Rabs_triang|]. rewrite Rabs_Ropp. replace (3 * d) with (2 * d * 1 + d) by ring. apply Rplus_le_compat; [apply abs_mul_le|]; auto. }
  split; eapply K; eauto.
Qed.
Lemma prod_near a b a' b' e f : Rabs b <= 1 -> Rabs a' <= 1 -> Rabs (a' - a) <= e -> Rabs (b' - b) <= f -> Rabs (a' * b' - a * b) <= e + f.
Proof.
  intros Hb Ha Da Db. replace (a' * b' - a * b) with (b * (a' - a) + a' * (b' - b)) by ring. eapply Rle_trans; [apply Rabs_triang|].
  replace (e + f) with (1 * e + 1 * f) by ring. apply Rplus_le_compat; apply abs_mul_le; auto.
Qed.
(** the Euler angles: each sine and cosine within e *)
Lemma zyz_near a b c a' b' c' e : Rabs (cos a' - cos a) <= e -> Rabs (sin a' - sin a) <= e -> Rabs (cos b' - cos b) <= e -> Rabs (sin b' - sin b) <= e ->
  Rabs (cos c' - cos c) <= e -> Rabs (sin c' - sin c) <= e -> mnear (5 * e) (zyz a b c) (zyz a' b' c').
Proof.
  intros Ca Sa Cb Sb Cc Sc. rewrite !zyz_form. destruct (abs_1 a), (abs_1 b), (abs_1 c), (abs_1 a'), (abs_1 b'), (abs_1 c'). pose proof (Rabs_pos (cos a' - cos a)).
  assert (PP : forall x y, Rabs x <= 1 -> Rabs y <= 1 -> Rabs (x * y) <= 1) by (intros; rewrite <- (Rmult_1_r 1); apply abs_mul_le; auto).
  assert (P2 : forall x y x' y', Rabs y <= 1 -> Rabs x' <= 1 -> Rabs (x' - x) <= e -> Rabs (y' - y) <= e -> Rabs (x' * y' - x * y) <= 2 * e) by (intros; replace (2 * e) with (e + e) by ring; apply prod_near; auto).
  assert (P3 : forall x y z x' y' z', Rabs y <= 1 -> Rabs z <= 1 -> Rabs x' <= 1 -> Rabs y' <= 1 -> Rabs (x' - x) <= e -> Rabs (y' - y) <= e -> Rabs (z' - z) <= e -> Rabs (x' * y' * z' - x * y * z) <= 3 * e) by (intros; replace (3 * e) with (2 * e + e) by ring; apply prod_near; auto).
  assert (K : forall x, Rabs x <= 3 * e -> - (3 * e) <= x <= 3 * e) by (intros; apply Rabs_le_inv; auto). assert (K' : forall x, Rabs x <= 2 * e -> - (2 * e) <= x <= 2 * e) by (intros; apply Rabs_le_inv; auto).
  assert (Q1 := K _ (P3 (cos a) (cos b) (cos c) (cos a') (cos b') (cos c') ltac:(auto) ltac:(auto) ltac:(auto) ltac:(auto) Ca Cb Cc)).
  assert (Q2 := K _ (P3 (cos a) (cos b) (sin c) (cos a') (cos b') (sin c') ltac:(auto) ltac:(auto) ltac:(auto) ltac:(auto) Ca Cb Sc)).
  assert (Q3 := K _ (P3 (sin a) (cos b) (cos c) (sin a') (cos b') (cos c') ltac:(auto) ltac:(auto) ltac:(auto) ltac:(auto) Sa Cb Cc)).
  assert (Q4 := K _ (P3 (sin a) (cos b) (sin c) (sin a') (cos b') (sin c') ltac:(auto) ltac:(auto) ltac:(auto) ltac:(auto) Sa Cb Sc)).
  assert (T1 := K' _ (P2 (sin a) (sin c) (sin a') (sin c') ltac:(auto) ltac:(auto) Sa Sc)). assert (T2 := K' _ (P2 (sin a) (cos c) (sin a') (cos c') ltac:(auto) ltac:(auto) Sa Cc)).
  assert (T3 := K' _ (P2 (cos a) (sin c) (cos a') (sin c') ltac:(auto) ltac:(auto) Ca Sc)). assert (T4 := K' _ (P2 (cos a) (cos c) (cos a') (cos c') ltac:(auto) ltac:(auto) Ca Cc)).
  assert (T5 := K' _ (P2 (cos a) (sin b) (cos a') (sin b') ltac:(auto) ltac:(auto) Ca Sb)). assert (T6 := K' _ (P2 (sin a) (sin b) (sin a') (sin b') ltac:(auto) ltac:(auto) Sa Sb)).
  assert (T7 := K' _ (P2 (sin b) (cos c) (sin b') (cos c') ltac:(auto) ltac:(auto) Sb Cc)). assert (T8 := K' _ (P2 (sin b) (sin c) (sin b') (sin c') ltac:(auto) ltac:(auto) Sb Sc)).
  apply Rabs_le_inv in Cb. clear - Q1 Q2 Q3 Q4 T1 T2 T3 T4 T5 T6 T7 T8 Cb.
  unfold mnear. cbn [m00 m01 m02 m10 m11 m12 m20 m21 m22]. repeat split; apply Rabs_le; lra.
Qed.
(** a rotation whose axis is not vertical is a product of Euler angles, in two ways *)
Lemma zyz_exists M k : rotation M -> k ^ 2 = 1 -> let sg := sqrt (m02 M ^ 2 + m12 M ^ 2) in 0 < sg ->
  exists a b c, zyz a b c = M /\ k * m02 M = sg * cos a /\ k * m12 M = sg * sin a /\ m22 M = cos b /\ k * sg = sin b /\ - (k * m20 M) = sg * cos c /\ k * m21 M = sg * sin c.
Proof.
  intros HM Hk sg Hs. assert (S2 : sg ^ 2 = m02 M ^ 2 + m12 M ^ 2) by apply sqrt_sum_sq. pose proof (rotation_col2 _ HM) as C2. pose proof (rotation_row2 _ HM) as R2.
  assert (U : forall x y, x ^ 2 + y ^ 2 = sg ^ 2 -> exists t, x = sg * cos t /\ y = sg * sin t).
  { intros x y E. destruct (unit_angle (x / sg) (y / sg)) as (t & E1 & E2).
    - unfold Rdiv. rewrite !Rpow_mult_distr, <- Rmult_plus_distr_r, E, <- Rpow_mult_distr, Rinv_r by lra. ring.
    - exists t. rewrite E1, E2. split; field; lra. }
  destruct (U (k * m02 M) (k * m12 M)) as (a & A1 & A2); [rewrite !Rpow_mult_distr, Hk; lra|].
  destruct (U (- (k * m20 M)) (k * m21 M)) as (c & G1 & G2); [replace ((- (k * m20 M)) ^ 2) with (k ^ 2 * m20 M ^ 2) by ring; rewrite Rpow_mult_distr, Hk; lra|].
  destruct (unit_angle (m22 M) (k * sg)) as (b & B1 & B2); [rewrite Rpow_mult_distr, Hk; lra|].
  exists a, b, c. split; [|repeat split; auto].
  destruct (zyz_entries a b c) as (Z1 & Z2 & Z3 & Z4 & Z5).
  assert (KK : forall x, k * (k * x) = x) by (intros; replace (k * (k * x)) with (k ^ 2 * x) by ring; rewrite Hk; ring).
  assert (I02 : m02 (zyz a b c) = m02 M) by (rewrite Z1, B2; transitivity (k * (sg * cos a)); [ring|rewrite <- A1; apply KK]).
  assert (I12 : m12 (zyz a b c) = m12 M) by (rewrite Z2, B2; transitivity (k * (sg * sin a)); [ring|rewrite <- A2; apply KK]).
  apply rotation_determined; [apply zyz_rotation|auto| | | |].
  - unfold col2. rewrite I02, I12, Z3, B1. reflexivity.
  - rewrite Z4, B2. transitivity (- (k * (sg * cos c))); [ring|]. rewrite <- G1. transitivity (k * (k * m20 M)); [ring|apply KK].
  - rewrite Z5, B2. transitivity (k * (sg * sin c)); [ring|]. rewrite <- G2. apply KK.
  - rewrite I02, I12, <- S2. nra.
Qed.

Section Wrist.
Context (A : arith_ik) (u eta g h : R) (OK : ik_ok A u eta g h).
Context (Hu : 0 < u <= 1e-13) (He : 0 <= eta <= u ^ 2).
Local Notation rn := (rnd (ar A)).
Lemma trig_shift t t' d e : Rabs (t' - t) <= d -> forall s, Rabs (cos t - cos s) <= e -> Rabs (sin t - sin s) <= e -> Rabs (cos t' - cos s) <= d + e /\ Rabs (sin t' - sin s) <= d + e.
Proof. intros H s Hc Hs. pose proof (cos_lip t' t). pose proof (sin_lip t' t). split; eapply abs3; eauto; lra. Qed.
Lemma fwrist_one M M' d k : rotation M -> k = 1 \/ k = -1 -> mnear d M M' -> 100 * u <= d <= 1e-3 ->
  let a5 := fsqrt A (rn (fsq A (m02 M') + fsq A (m12 M'))) in
  let t1 := fatan2 A (k * m12 M') (k * m02 M') in let t2 := fatan2 A (k * a5) (m22 M') in let t3 := fatan2 A (k * m21 M') (- (k * m20 M')) in
  Rabs (cos t2 - m22 M) <= 7.3 * d /\ forall s, 1000 * d <= s <= Rabs (sin t2) -> mnear (37 * (d / s)) M (zyz t1 t2 t3).
Proof.
  intros HM Kk ND Hd a5 t1 t2 t3. assert (Hk : k ^ 2 = 1) by (destruct Kk as [-> | ->]; ring).
  assert (K1 : Rabs k = 1) by (destruct Kk as [-> | ->]; unfold Rabs; destruct (Rcase_abs _); lra).
  assert (KA : forall x y, Rabs (y - x) <= d -> Rabs (k * y - k * x) <= d).
  { intros x y E. replace (k * y - k * x) with (k * (y - x)) by ring. rewrite Rabs_mult, K1. lra. }
  destruct (rotation_mle M HM) as ((b00 & b01 & b02) & (b10 & b11 & b12) & (b20 & b21 & b22)). destruct ND as ((n00 & n01 & n02) & (n10 & n11 & n12) & (n20 & n21 & n22)).
  pose proof (abs_le_add _ _ _ _ n02 b02) as c02. pose proof (abs_le_add _ _ _ _ n12 b12) as c12.
  set (sg := sqrt (m02 M ^ 2 + m12 M ^ 2)). assert (S0 : 0 <= sg) by apply sqrt_pos. assert (S2 : sg ^ 2 = m02 M ^ 2 + m12 M ^ 2) by apply sqrt_sum_sq. pose proof (rotation_col2 _ HM) as C2.
  assert (S1 : sg <= 1) by (apply Rsqr_incr_0_var; [|lra]; unfold Rsqr; pose proof (pow2_ge_0 (m22 M)); lra).
  assert (DA : Rabs (a5 - sg) <= 2.4 * d).
  { eapply Rle_trans; [eapply abs3; [apply (hyp_e A u eta g h OK Hu He); lra|apply (hyp_lip _ _ _ _ d n02 n12)]|]. lra. }
  assert (DK : Rabs (k * a5 - k * sg) <= 2.4 * d).
  { replace (k * a5 - k * sg) with (k * (a5 - sg)) by ring. rewrite Rabs_mult, K1. lra. }
  destruct (unit_angle (m22 M) (k * sg)) as (b0 & B1 & B2); [rewrite Rpow_mult_distr, Hk; lra|].
  destruct (io_atan _ _ _ _ _ OK (k * a5) (m22 M')) as (th2 & I1 & I2 & I3). fold t2 in I3.
  destruct (dir_near (cos b0) (sin b0) (m22 M') (k * a5) 1 b0 th2 (2.4 * d)) as [J1 J2]; auto; try lra.
  { rewrite B1. lra. }
  { rewrite B2. auto. }
  rewrite Rmult_1_l in J1, J2. destruct (trig_shift th2 t2 _ _ I3 b0 J1 J2) as [T2c T2s].
  split; [rewrite <- B1; lra|]. intros s Hs.
  assert (Sg : 0.99 * s <= sg).
  { rewrite B2 in T2s. assert (Rabs (k * sg) = sg) by (rewrite Rabs_mult, K1, abs_ge; lra).
    pose proof (abs_tri _ _ _ T2s). lra. }
  assert (SP : 0 < s) by lra. assert (SGP : 0 < sg) by lra.
  destruct (zyz_exists M k HM Hk SGP) as (a & b & c & EM & A1 & A2 & A3 & A4 & A5 & A6). fold sg in A1, A2, A4, A5, A6. rewrite A3 in B1. rewrite A4 in B2. rewrite B1 in T2c. rewrite B2 in T2s.
  destruct (io_atan _ _ _ _ _ OK (k * m12 M') (k * m02 M')) as (th1 & P1 & P2 & P3). fold t1 in P3.
  destruct (dir_near _ _ _ _ sg a th1 d S0 A1 A2 P1 P2 (KA _ _ n02) (KA _ _ n12)) as [Q1 Q2].
  destruct (io_atan _ _ _ _ _ OK (k * m21 M') (- (k * m20 M'))) as (th3 & R1 & R2 & R3). fold t3 in R3.
  assert (N20 : Rabs (- (k * m20 M') - - (k * m20 M)) <= d) by (replace (- (k * m20 M') - - (k * m20 M)) with (- (k * m20 M' - k * m20 M)) by ring; rewrite Rabs_Ropp; auto).
  destruct (dir_near _ _ _ _ sg c th3 d S0 A5 A6 R1 R2 N20 (KA _ _ n21)) as [Q3 Q4].
  assert (DV : forall x, sg * x <= 3 * d -> x <= 3 * d / sg) by (intros x E; apply Rmult_le_reg_l with sg; [lra|]; replace (sg * (3 * d / sg)) with (3 * d) by (field; lra); lra).
  destruct (trig_shift _ _ _ _ P3 a (DV _ Q1) (DV _ Q2)) as [T1c T1s]. destruct (trig_shift _ _ _ _ R3 c (DV _ Q3) (DV _ Q4)) as [T3c T3s].
  assert (DS : d <= d / sg) by (apply Rmult_le_reg_l with sg; [lra|]; replace (sg * (d / sg)) with (1 * d) by (field; lra); apply Rmult_le_compat_r; lra).
  assert (DSS : d / sg <= 1.0102 * (d / s)).
  { apply Rmult_le_reg_l with (sg * s); [apply Rmult_lt_0_compat; lra|]. replace (sg * s * (d / sg)) with (s * d) by (field; lra). replace (sg * s * (1.0102 * (d / s))) with (1.0102 * sg * d) by (field; lra). apply Rmult_le_compat_r; lra. }
  assert (X3 : 3 * d / sg = 3 * (d / sg)) by (unfold Rdiv; ring). rewrite X3 in *.
  rewrite <- EM. apply (mnear_le (5 * (7.3 * (d / sg)))); [lra|]. apply zyz_near; lra.
Qed.
Lemma fwrist_near M M' d q : rotation M -> mnear d M M' -> 100 * u <= d <= 1e-3 -> In q (fwrist_angles A M') ->
  exists t1 t2 t3, q = [t1; t2; t3] /\ Rabs (cos t2 - m22 M) <= 7.3 * d /\ forall s, 1000 * d <= s <= Rabs (sin t2) -> mnear (37 * (d / s)) M (zyz t1 t2 t3).
Proof.
  intros HM ND Hd Hq. unfold fwrist_angles in Hq. cbn [col0 col1 col2 vx vy vz] in Hq. set (a5 := fsqrt A _) in Hq. destruct Hq as [<-|[<-|[]]]; do 3 eexists; (split; [reflexivity|]).
  - pose proof (fwrist_one M M' d 1 HM (or_introl eq_refl) ND Hd) as H. cbv zeta in H. fold a5 in H. rewrite !Rmult_1_l in H. exact H.
  - pose proof (fwrist_one M M' d (-1) HM (or_intror eq_refl) ND Hd) as H. cbv zeta in H. fold a5 in H.
    replace (-1 * m12 M') with (- m12 M') in H by ring. replace (-1 * m02 M') with (- m02 M') in H by ring. replace (-1 * a5) with (- a5) in H by ring. replace (-1 * m21 M') with (- m21 M') in H by ring. replace (- (-1 * m20 M')) with (m20 M') in H by ring. exact H.
Qed.
End Wrist.
