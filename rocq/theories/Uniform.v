(** * Proofs about sample_SO3: the samples are spread evenly over the orientations. *)
From Coq Require Import String Reals Lra Lia List Bool Arith ZArith.
From Verif Require Import PyBase Mat Util UtilProofs HaltonProofs IkProofs Path Io IoProofs Examples ExamplesProofs.
Import ListNotations.
Local Open Scope R_scope.

Lemma turn s c : c ^ 2 + s ^ 2 = 1 -> exists t, 0 <= t < 1 /\ sin (2 * PI * t) = s /\ cos (2 * PI * t) = c.
Proof.
  intros H. pose proof PI_RGT_0 as P. destruct (atan2_unit s c H) as [C S]. pose proof (atan2_bound s c) as B. set (a := atan2 s c) in *.
  destruct (Rle_dec 0 a) as [L|L].
  - exists (a / (2 * PI)). replace (2 * PI * (a / (2 * PI))) with a by (field; lra). split; auto. split; [apply Rmult_le_pos; [lra|left; apply Rinv_0_lt_compat; lra]|].
    apply (Rmult_lt_reg_r (2 * PI)); [lra|]. replace (a / (2 * PI) * (2 * PI)) with a by (field; lra). lra.
  - exists (a / (2 * PI) + 1). replace (2 * PI * (a / (2 * PI) + 1)) with (a + 2 * PI) by (field; lra). rewrite sin_plus, cos_plus, sin_2PI, cos_2PI, !Rmult_1_r, !Rmult_0_r, Rplus_0_r, Rminus_0_r. split; auto.
    assert (-1 < a / (2 * PI) < 0); [|lra]. split; apply (Rmult_lt_reg_r (2 * PI)); try lra; replace (a / (2 * PI) * (2 * PI)) with a by (field; lra); lra.
Qed.
Lemma turn_scaled r s c : 0 <= r -> c ^ 2 + s ^ 2 = r -> exists t, 0 <= t < 1 /\ sqrt r * sin (2 * PI * t) = s /\ sqrt r * cos (2 * PI * t) = c.
Proof.
  intros Hr H. destruct (Req_EM_T r 0) as [->|N].
  - exists 0. rewrite sqrt_0, !Rmult_0_l. split; [lra|]. assert (0 <= c ^ 2) by apply pow2_ge_0. assert (0 <= s ^ 2) by apply pow2_ge_0. split; symmetry; apply Rsqr_0_uniq; unfold Rsqr; lra.
  - assert (Hq : 0 < sqrt r) by (apply sqrt_lt_R0; lra). assert (Q : sqrt r * sqrt r = r) by (apply sqrt_sqrt; auto).
    destruct (turn (s / sqrt r) (c / sqrt r)) as (t & T & S & C).
    { replace ((c / sqrt r) ^ 2 + (s / sqrt r) ^ 2) with ((c ^ 2 + s ^ 2) / (sqrt r * sqrt r)) by (field; lra). rewrite Q, H. field. auto. }
    exists t. split; auto. rewrite S, C. split; field; lra.
Qed.
(** every unit quaternion is reached *)
Lemma quat_onto q : qnorm2 q = 1 -> exists r1 r2 r3, 0 <= r1 <= 1 /\ 0 <= r2 < 1 /\ 0 <= r3 < 1 /\ quat_of r1 r2 r3 = q.
Proof.
  destruct q as [w x y z]. unfold qnorm2. cbn [qw qx qy qz]. intros H.
  assert (0 <= w * w) by nra. assert (0 <= x * x) by nra. assert (0 <= y * y) by nra. assert (0 <= z * z) by nra.
  destruct (turn_scaled (1 - (y * y + z * z)) w x) as (r2 & T2 & S2 & C2); [lra|lra|].
  destruct (turn_scaled (y * y + z * z) y z) as (r3 & T3 & S3 & C3); [lra|lra|].
  exists (y * y + z * z), r2, r3. split; [lra|]. split; auto. split; auto. unfold quat_of. rewrite S2, C2, S3, C3. reflexivity.
Qed.
Lemma rotation_onto A : rotation A -> exists r1 r2 r3, 0 <= r1 <= 1 /\ 0 <= r2 < 1 /\ 0 <= r3 < 1 /\ qrot (quat_of r1 r2 r3) = A.
Proof.
  intros H. destruct (quat_of_matrix_rot A H) as [U V]. destruct (quat_onto _ U) as (r1 & r2 & r3 & B1 & B2 & B3 & E). exists r1, r2, r3. rewrite E. auto.
Qed.
(** ... once *)
Lemma turn_inj t t' : 0 <= t < 1 -> 0 <= t' < 1 -> sin (2 * PI * t) = sin (2 * PI * t') -> cos (2 * PI * t) = cos (2 * PI * t') -> t = t'.
Proof.
  intros T T' S C. pose proof PI_RGT_0 as P. destruct (cong_intro _ _ C S) as [k K].
  assert (E : t = t' + IZR k). { apply (Rmult_eq_reg_l (2 * PI)); [|lra]. rewrite K. ring. }
  assert (k = 0%Z); [|subst k; lra]. assert (-1 < IZR k < 1) as [A B] by lra. apply (lt_IZR (-1)) in A. apply (lt_IZR _ 1) in B. lia.
Qed.
Lemma quat_inj r1 r2 r3 s1 s2 s3 : 0 < r1 < 1 -> 0 < s1 < 1 -> 0 <= r2 < 1 -> 0 <= s2 < 1 -> 0 <= r3 < 1 -> 0 <= s3 < 1 ->
  quat_of r1 r2 r3 = quat_of s1 s2 s3 -> r1 = s1 /\ r2 = s2 /\ r3 = s3.
Proof.
  intros R1 S1 R2 S2 R3 S3 H. unfold quat_of in H. injection H as Hw Hx Hy Hz.
  assert (N : forall r a, 0 <= r -> (sqrt r * sin a) ^ 2 + (sqrt r * cos a) ^ 2 = r).
  { intros r a Hr. replace ((sqrt r * sin a) ^ 2 + (sqrt r * cos a) ^ 2) with (sqrt r * sqrt r * (Rsqr (sin a) + Rsqr (cos a))) by (unfold Rsqr; ring). rewrite sin2_cos2, sqrt_sqrt; lra. }
  assert (E1 : r1 = s1) by (rewrite <- (N r1 (2 * PI * r3)), <- (N s1 (2 * PI * s3)) by lra; rewrite Hy, Hz; reflexivity).
  split; auto. subst s1. assert (0 < sqrt r1) by (apply sqrt_lt_R0; lra). assert (0 < sqrt (1 - r1)) by (apply sqrt_lt_R0; lra).
  split; apply turn_inj; auto; (eapply Rmult_eq_reg_l; [eassumption|lra]).
Qed.

(** ** density *)
(** d is the velocity of the curve f at t *)
Definition velocity (f : R -> quat) (t : R) (d : quat) : Prop :=
  derivable_pt_lim (fun s => qw (f s)) t (qw d) /\ derivable_pt_lim (fun s => qx (f s)) t (qx d) /\
  derivable_pt_lim (fun s => qy (f s)) t (qy d) /\ derivable_pt_lim (fun s => qz (f s)) t (qz d).
Lemma d_sqrt r k : 0 < r -> derivable_pt_lim (fun s => sqrt s * k) r (/ (2 * sqrt r) * k).
Proof.
  intros H. replace (/ (2 * sqrt r) * k) with (/ (2 * sqrt r) * k + sqrt r * 0) by ring.
  apply (derivable_pt_lim_mult sqrt (fun _ => k)); [apply derivable_pt_lim_sqrt; auto|apply derivable_pt_lim_const].
Qed.
Lemma d_sqrt' r k : r < 1 -> derivable_pt_lim (fun s => sqrt (1 - s) * k) r (- / (2 * sqrt (1 - r)) * k).
Proof.
  intros H. replace (- / (2 * sqrt (1 - r)) * k) with ((/ (2 * sqrt (1 - r)) * (0 - 1)) * k + sqrt (1 - r) * 0) by ring.
  apply (derivable_pt_lim_mult (fun s => sqrt (1 - s)) (fun _ => k)); [|apply derivable_pt_lim_const].
  apply (derivable_pt_lim_comp (fun s => 1 - s) sqrt); [|apply derivable_pt_lim_sqrt; lra].
  apply (derivable_pt_lim_minus (fun _ => 1) id); [apply derivable_pt_lim_const|apply derivable_pt_lim_id].
Qed.
Lemma d_angle t : derivable_pt_lim (fun s => 2 * PI * s) t (2 * PI).
Proof. assert (E : 0 * id t + 2 * PI * 1 = 2 * PI) by ring. pose proof (derivable_pt_lim_mult (fun _ => 2 * PI) id t 0 1 (derivable_pt_lim_const _ _) (derivable_pt_lim_id t)) as H. cbv beta in H. rewrite E in H. exact H. Qed.
Lemma d_sin k t : derivable_pt_lim (fun s => k * sin (2 * PI * s)) t (k * (2 * PI * cos (2 * PI * t))).
Proof.
  replace (k * (2 * PI * cos (2 * PI * t))) with (0 * sin (2 * PI * t) + k * (cos (2 * PI * t) * (2 * PI))) by ring.
  apply (derivable_pt_lim_mult (fun _ => k) (fun s => sin (2 * PI * s))); [apply derivable_pt_lim_const|].
  apply (derivable_pt_lim_comp (fun s => 2 * PI * s) sin); [apply d_angle|apply derivable_pt_lim_sin].
Qed.
Lemma d_cos k t : derivable_pt_lim (fun s => k * cos (2 * PI * s)) t (- (k * (2 * PI * sin (2 * PI * t)))).
Proof.
  replace (- (k * (2 * PI * sin (2 * PI * t)))) with (0 * cos (2 * PI * t) + k * (- sin (2 * PI * t) * (2 * PI))) by ring.
  apply (derivable_pt_lim_mult (fun _ => k) (fun s => cos (2 * PI * s))); [apply derivable_pt_lim_const|].
  apply (derivable_pt_lim_comp (fun s => 2 * PI * s) cos); [apply d_angle|apply derivable_pt_lim_cos].
Qed.
Lemma quat_volume r1 r2 r3 : 0 < r1 < 1 -> exists d1 d2 d3,
  velocity (fun s => quat_of s r2 r3) r1 d1 /\ velocity (fun s => quat_of r1 s r3) r2 d2 /\ velocity (fun s => quat_of r1 r2 s) r3 d3 /\
  qdot d1 (quat_of r1 r2 r3) = 0 /\ qdot d2 (quat_of r1 r2 r3) = 0 /\ qdot d3 (quat_of r1 r2 r3) = 0 /\
  qdot d1 d2 = 0 /\ qdot d1 d3 = 0 /\ qdot d2 d3 = 0 /\
  sqrt (qnorm2 d1) * sqrt (qnorm2 d2) * sqrt (qnorm2 d3) = 2 * PI ^ 2.
Proof.
  intros H. assert (P : 0 < sqrt r1) by (apply sqrt_lt_R0; lra). assert (P' : 0 < sqrt (1 - r1)) by (apply sqrt_lt_R0; lra).
  assert (Q : sqrt r1 * sqrt r1 = r1) by (apply sqrt_sqrt; lra). assert (Q' : sqrt (1 - r1) * sqrt (1 - r1) = 1 - r1) by (apply sqrt_sqrt; lra).
  pose proof (sin2_cos2 (2 * PI * r2)) as E2. pose proof (sin2_cos2 (2 * PI * r3)) as E3. unfold Rsqr in E2, E3. pose proof PI_RGT_0 as PP.
  unfold quat_of, velocity, qdot, qnorm2. cbn [qw qx qy qz].
  exists (Quat (- / (2 * sqrt (1 - r1)) * sin (2 * PI * r2)) (- / (2 * sqrt (1 - r1)) * cos (2 * PI * r2)) (/ (2 * sqrt r1) * sin (2 * PI * r3)) (/ (2 * sqrt r1) * cos (2 * PI * r3))).
  exists (Quat (sqrt (1 - r1) * (2 * PI * cos (2 * PI * r2))) (- (sqrt (1 - r1) * (2 * PI * sin (2 * PI * r2)))) 0 0).
  exists (Quat 0 0 (sqrt r1 * (2 * PI * cos (2 * PI * r3))) (- (sqrt r1 * (2 * PI * sin (2 * PI * r3))))).
  cbn [qw qx qy qz].
  split; [repeat split; [apply d_sqrt'; lra|apply d_sqrt'; lra|apply d_sqrt; lra|apply d_sqrt; lra]|].
  split; [repeat split; [apply d_sin|apply d_cos|apply derivable_pt_lim_const|apply derivable_pt_lim_const]|].
  split; [repeat split; [apply derivable_pt_lim_const|apply derivable_pt_lim_const|apply d_sin|apply d_cos]|].
  set (a := sqrt r1) in *. set (b := sqrt (1 - r1)) in *. set (s2 := sin (2 * PI * r2)) in *. set (c2 := cos (2 * PI * r2)) in *. set (s3 := sin (2 * PI * r3)) in *. set (c3 := cos (2 * PI * r3)) in *.
  split. { replace (- / (2 * b) * s2 * (b * s2) + - / (2 * b) * c2 * (b * c2) + / (2 * a) * s3 * (a * s3) + / (2 * a) * c3 * (a * c3)) with (- (s2 * s2 + c2 * c2) / 2 + (s3 * s3 + c3 * c3) / 2) by (field; lra). rewrite E2, E3. lra. }
  split; [ring|]. split; [ring|]. split; [ring|]. split; [ring|]. split; [ring|].
  replace (- / (2 * b) * s2 * (- / (2 * b) * s2) + - / (2 * b) * c2 * (- / (2 * b) * c2) + / (2 * a) * s3 * (/ (2 * a) * s3) + / (2 * a) * c3 * (/ (2 * a) * c3))
    with ((s2 * s2 + c2 * c2) / (4 * (b * b)) + (s3 * s3 + c3 * c3) / (4 * (a * a))) by (field; lra).
  rewrite E2, E3.
  replace (b * (2 * PI * c2) * (b * (2 * PI * c2)) + - (b * (2 * PI * s2)) * - (b * (2 * PI * s2)) + 0 * 0 + 0 * 0) with (Rsqr (2 * PI * b) * (s2 * s2 + c2 * c2)) by (unfold Rsqr; ring).
  replace (0 * 0 + 0 * 0 + a * (2 * PI * c3) * (a * (2 * PI * c3)) + - (a * (2 * PI * s3)) * - (a * (2 * PI * s3))) with (Rsqr (2 * PI * a) * (s3 * s3 + c3 * c3)) by (unfold Rsqr; ring).
  rewrite E2, E3, !Rmult_1_r. rewrite !sqrt_Rsqr by (apply Rmult_le_pos; lra).
  replace (1 / (4 * (b * b)) + 1 / (4 * (a * a))) with (Rsqr (/ (2 * a * b))).
  - rewrite sqrt_Rsqr by (left; apply Rinv_0_lt_compat, Rmult_lt_0_compat; lra). field. lra.
  - unfold Rsqr. replace (1 / (4 * (b * b)) + 1 / (4 * (a * a))) with ((a * a + b * b) / (4 * (a * a) * (b * b))) by (field; lra). replace (a * a + b * b) with 1 by lra. field. lra.
Qed.

(** ** Halton samples come near every orientation *)
Lemma sqrt_near a b d : 0 <= a -> 0 <= b -> Rabs (a - b) <= d -> Rabs (sqrt a - sqrt b) <= sqrt d.
Proof.
  assert (H : forall a b, 0 <= a -> a <= b -> b - a <= d -> sqrt b - sqrt a <= sqrt d).
  { intros x y Hx Hxy D. assert (0 <= sqrt x) by apply sqrt_pos. assert (0 <= sqrt d) by apply sqrt_pos.
    assert (sqrt y <= sqrt (Rsqr (sqrt x + sqrt d))); [|rewrite sqrt_Rsqr in *; lra].
    apply sqrt_le_1_alt. unfold Rsqr. replace ((sqrt x + sqrt d) * (sqrt x + sqrt d)) with (sqrt x * sqrt x + sqrt d * sqrt d + 2 * (sqrt x * sqrt d)) by ring.
    rewrite !sqrt_sqrt by lra. assert (0 <= sqrt x * sqrt d) by (apply Rmult_le_pos; auto). lra. }
  intros Ha Hb D. destruct (Rle_dec a b) as [L|L].
  - assert (sqrt a <= sqrt b) by (apply sqrt_le_1_alt; auto). rewrite Rabs_left1 in * by lra. specialize (H a b Ha L). lra.
  - assert (sqrt b <= sqrt a) by (apply sqrt_le_1_alt; lra). rewrite Rabs_pos_eq in * by lra. specialize (H b a Hb). lra.
Qed.
Lemma prod_near a b c d e f : 0 <= c <= 1 -> Rabs b <= 1 -> Rabs (a - c) <= e -> Rabs (b - d) <= f -> Rabs (a * b - c * d) <= e + f.
Proof.
  intros C B E F. replace (a * b - c * d) with ((a - c) * b + c * (b - d)) by ring. eapply Rle_trans; [apply Rabs_triang|]. rewrite !Rabs_mult. rewrite (Rabs_pos_eq c) by lra.
  pose proof (Rabs_pos (a - c)). pose proof (Rabs_pos (b - d)). pose proof (Rabs_pos b).
  assert (Rabs (a - c) * Rabs b <= Rabs (a - c) * 1) by (apply Rmult_le_compat_l; lra). assert (c * Rabs (b - d) <= 1 * Rabs (b - d)) by (apply Rmult_le_compat_r; lra). lra.
Qed.
