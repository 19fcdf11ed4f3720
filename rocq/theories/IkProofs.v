(** * Proofs about the arm and wrist inverse kinematics. *)
From Coq Require Import Reals Lra Psatz List Bool Arith Lia.
From Verif Require Import PyBase Mat Util UtilProofs Geometry Robot RobotProofs RobotForms Ik.
Import ListNotations.
Local Open Scope R_scope.

(** ** Angles *)
Definition cong (a b : R) : Prop := exists k : Z, a = b + 2 * IZR k * PI.
Lemma cong_intro a b : cos a = cos b -> sin a = sin b -> cong a b.
Proof.
  intros Hc Hs. assert (H : cos (a - b) = 1). { rewrite cos_minus, Hc, Hs. pose proof (sin2_cos2 b) as H. unfold Rsqr in H. lra. }
  assert (S : sin ((a - b) / 2) = 0). { replace (a - b) with (2 * ((a - b) / 2)) in H by field. rewrite cos_2a_sin in H. nra. }
  apply sin_eq_0_0 in S. destruct S as [k Hk]. exists k. lra.
Qed.
Lemma cong_cos_sin a b : cong a b -> cos a = cos b /\ sin a = sin b.
Proof.
  intros [k ->]. replace (b + 2 * IZR k * PI) with (b + IZR k * (2 * PI)) by ring. rewrite cos_plus, sin_plus.
  assert (S : sin (IZR k * (2 * PI)) = 0) by (replace (IZR k * (2 * PI)) with (IZR (2 * k) * PI) by (rewrite mult_IZR; ring); apply sin_eq_0_1; eauto).
  assert (C : cos (IZR k * (2 * PI)) = 1).
  { replace (IZR k * (2 * PI)) with (2 * (IZR k * PI)) by ring. rewrite cos_2a_sin, (sin_eq_0_1 (IZR k * PI)) by eauto. ring. }
  rewrite S, C. lra.
Qed.
Lemma cong_iff a b : cong a b <-> cos a = cos b /\ sin a = sin b.
Proof. split; [apply cong_cos_sin|intros []; apply cong_intro; auto]. Qed.

Lemma sqrt_sum_pos x y : 0 < x ^ 2 + y ^ 2 -> 0 < sqrt (x ^ 2 + y ^ 2).
Proof. apply sqrt_lt_R0. Qed.
Lemma sqrt_sum_sq x y : sqrt (x ^ 2 + y ^ 2) ^ 2 = x ^ 2 + y ^ 2.
Proof. apply pow2_sqrt. nra. Qed.
(** polar coordinates, also at the origin *)
Lemma polar x y : cos (atan2 y x) * sqrt (x ^ 2 + y ^ 2) = x /\ sin (atan2 y x) * sqrt (x ^ 2 + y ^ 2) = y.
Proof.
  destruct (Req_dec (x ^ 2 + y ^ 2) 0) as [E|E].
  - assert (x = 0) by nra. assert (y = 0) by nra. subst. rewrite E, sqrt_0. lra.
  - assert (P : 0 < x ^ 2 + y ^ 2) by nra. assert (Q : x² + y² = x ^ 2 + y ^ 2) by (unfold Rsqr; ring).
    destruct (atan2_spec y x) as [Ec Es]; [rewrite Q; auto|]. rewrite Ec, Es, Q. pose proof (sqrt_lt_R0 _ P). split; field; lra.
Qed.
Lemma polar_neg x y : cos (atan2 (- y) (- x)) * - sqrt (x ^ 2 + y ^ 2) = x /\ sin (atan2 (- y) (- x)) * - sqrt (x ^ 2 + y ^ 2) = y.
Proof.
  destruct (polar (- x) (- y)) as [A B]. replace ((- x) ^ 2 + (- y) ^ 2) with (x ^ 2 + y ^ 2) in A, B by ring. lra.
Qed.
Lemma atan2_unit s c : c ^ 2 + s ^ 2 = 1 -> cos (atan2 s c) = c /\ sin (atan2 s c) = s.
Proof. intros H. destruct (polar c s) as [A B]. rewrite H, sqrt_1 in A, B. lra. Qed.
Lemma atan2_scaled k s c t : 0 < k -> c ^ 2 + s ^ 2 = k ^ 2 -> t = atan2 s c -> k * cos t = c /\ k * sin t = s.
Proof.
  intros Hk H ->. destruct (polar c s) as [A B]. rewrite H in A, B. replace (k ^ 2) with (k * k) in A, B by ring. rewrite sqrt_square in A, B by lra. lra.
Qed.
(** the other way around: an angle with these (scaled) cosine and sine is congruent to atan2 *)
Lemma atan2_cong k s c t : 0 < k -> k * cos t = c -> k * sin t = s -> cong t (atan2 s c).
Proof.
  intros Hk Hc Hs. assert (E : c ^ 2 + s ^ 2 = k ^ 2). { subst. pose proof (sin2_cos2 t) as H. unfold Rsqr in H. nra. }
  destruct (atan2_scaled k s c _ Hk E eq_refl) as [A B]. apply cong_intro; apply (Rmult_eq_reg_l k); lra.
Qed.

(** ** The rounding of the elbow cosine *)
Lemma Rabs_le_inv a b : Rabs a <= b -> - b <= a <= b.
Proof. intros H. pose proof (Rle_abs a). pose proof (Rle_abs (- a)) as H1. rewrite Rabs_Ropp in H1. lra. Qed.
Lemma tol_pos : 0 < tol < 1.
Proof. unfold tol. lra. Qed.
Lemma elbow_None c : elbow c = None <-> 1 + tol < Rabs c.
Proof.
  pose proof tol_pos. unfold elbow. destruct (Rlt_dec (1 + tol) c); [split; auto; rewrite Rabs_pos_eq by lra; auto|].
  destruct (Rlt_dec c (- (1 + tol))); [split; auto; rewrite Rabs_left by lra; lra|].
  assert (Rabs c <= 1 + tol) by (apply Rabs_le; lra).
  split; [repeat destruct (Rlt_dec _ _); discriminate|lra].
Qed.
(** either exact, or rounded by at most tol to plus or minus one *)
Lemma elbow_Some c c' : elbow c = Some c' ->
  (c' = c /\ Rabs c <= 1 - tol) \/ (1 - tol < Rabs c /\ (c' = 1 \/ c' = -1) /\ Rabs (c - c') <= tol).
Proof.
  pose proof tol_pos. unfold elbow. destruct (Rlt_dec (1 + tol) c); [discriminate|]. destruct (Rlt_dec c (- (1 + tol))); [discriminate|].
  destruct (Rlt_dec (1 - tol) c).
  { intros [= <-]. right. unfold sgn. destruct (Rlt_dec 0 c); [|lra]. split; [rewrite Rabs_pos_eq; lra|]. split; auto. apply Rabs_le. lra. }
  destruct (Rlt_dec c (- (1 - tol))).
  { intros [= <-]. right. unfold sgn. destruct (Rlt_dec 0 c); [lra|]. destruct (Rlt_dec c 0); [|lra]. split; [rewrite Rabs_left; lra|]. split; auto. apply Rabs_le. lra. }
  intros [= <-]. left. split; auto. apply Rabs_le. lra.
Qed.
Lemma elbow_exact c : Rabs c <= 1 - tol -> elbow c = Some c.
Proof.
  pose proof tol_pos. intros H1. apply Rabs_le_inv in H1.
  unfold elbow. repeat (destruct (Rlt_dec _ _); [lra|]). reflexivity.
Qed.
Lemma elbow_range c c' : elbow c = Some c' -> 0 <= 1 - c' ^ 2.
Proof.
  intros H. pose proof tol_pos. apply elbow_Some in H. destruct H as [[-> H]|(_ & [->| ->] & _)]; [|lra|lra]. apply Rabs_le_inv in H. nra.
Qed.
(** the two elbow angles *)
Lemma elbow_angles c c' : elbow c = Some c' -> let s := sqrt (1 - c' ^ 2) in
  cos (atan2 s c') = c' /\ sin (atan2 s c') = s /\ cos (atan2 (- s) c') = c' /\ sin (atan2 (- s) c') = - s /\ c' ^ 2 + s ^ 2 = 1.
Proof.
  intros H s. assert (E : c' ^ 2 + s ^ 2 = 1) by (unfold s; rewrite pow2_sqrt by (eapply elbow_range; eauto); ring).
  destruct (atan2_unit s c' E) as [A B]. destruct (atan2_unit (- s) c') as [A' B']; [replace ((- s) ^ 2) with (s ^ 2) by ring; auto|]. auto.
Qed.

(** ** The planar two-link arm inside both arms *)
Definition reach_r (a2 a3 q2 q3 : R) : R := a2 * cos q2 + a3 * cos (q2 + q3).
Definition reach_z (a2 a3 q2 q3 : R) : R := a2 * sin q2 + a3 * sin (q2 + q3).
(** law of cosines *)
Lemma reach_cos a2 a3 q2 q3 : reach_r a2 a3 q2 q3 ^ 2 + reach_z a2 a3 q2 q3 ^ 2 = a2 ^ 2 + a3 ^ 2 + 2 * a2 * a3 * cos q3.
Proof.
  unfold reach_r, reach_z. rewrite cos_plus, sin_plus. pose proof (sin2_cos2 q2) as H2. pose proof (sin2_cos2 q3) as H3. unfold Rsqr in *.
  set (c2 := cos q2) in *. set (s2 := sin q2) in *. set (c3 := cos q3) in *. set (s3 := sin q3) in *.
  transitivity ((s2 * s2 + c2 * c2) * (a2 ^ 2 + 2 * a2 * a3 * c3 + a3 ^ 2 * (s3 * s3 + c3 * c3))); [ring|]. rewrite H2, H3. ring.
Qed.
Lemma reach_AB a2 a3 q2 q3 : let A := a2 + a3 * cos q3 in let B := a3 * sin q3 in
  reach_r a2 a3 q2 q3 = A * cos q2 - B * sin q2 /\ reach_z a2 a3 q2 q3 = A * sin q2 + B * cos q2.
Proof. cbv zeta. unfold reach_r, reach_z. rewrite cos_plus, sin_plus. split; ring. Qed.
Definition two_link_q2 (a2 a3 r z c3 s3 : R) : R := atan2 (z * (a2 + a3 * c3) - r * (a3 * s3)) (r * (a2 + a3 * c3) + z * (a3 * s3)).
Lemma two_link_exact a2 a3 r z q3 : r ^ 2 + z ^ 2 = a2 ^ 2 + a3 ^ 2 + 2 * a2 * a3 * cos q3 -> 0 < r ^ 2 + z ^ 2 ->
  let q2 := two_link_q2 a2 a3 r z (cos q3) (sin q3) in reach_r a2 a3 q2 q3 = r /\ reach_z a2 a3 q2 q3 = z.
Proof.
  intros H P q2. destruct (reach_AB a2 a3 q2 q3) as [-> ->]. set (A := a2 + a3 * cos q3) in *. set (B := a3 * sin q3) in *.
  assert (N : A ^ 2 + B ^ 2 = r ^ 2 + z ^ 2).
  { unfold A, B. pose proof (sin2_cos2 q3) as E. unfold Rsqr in E. rewrite H. nra. }
  destruct (atan2_scaled (r ^ 2 + z ^ 2) (z * A - r * B) (r * A + z * B) q2 P) as [Ec Es].
  { transitivity ((A ^ 2 + B ^ 2) * (r ^ 2 + z ^ 2)); [ring|]. rewrite N. ring. }
  { reflexivity. }
  split; apply (Rmult_eq_reg_l (r ^ 2 + z ^ 2)); try lra.
  - replace ((r ^ 2 + z ^ 2) * (A * cos q2 - B * sin q2)) with (A * ((r ^ 2 + z ^ 2) * cos q2) - B * ((r ^ 2 + z ^ 2) * sin q2)) by ring.
    rewrite Ec, Es. rewrite <- N. ring.
  - replace ((r ^ 2 + z ^ 2) * (A * sin q2 + B * cos q2)) with (A * ((r ^ 2 + z ^ 2) * sin q2) + B * ((r ^ 2 + z ^ 2) * cos q2)) by ring.
    rewrite Ec, Es. rewrite <- N. ring.
Qed.
(** any joint pair that reaches (r, z) has this q2 *)
Lemma two_link_unique a2 a3 q2 q3 : 0 < reach_r a2 a3 q2 q3 ^ 2 + reach_z a2 a3 q2 q3 ^ 2 ->
  cong q2 (two_link_q2 a2 a3 (reach_r a2 a3 q2 q3) (reach_z a2 a3 q2 q3) (cos q3) (sin q3)).
Proof.
  intros P. destruct (reach_AB a2 a3 q2 q3) as [E1 E2]. set (r := reach_r a2 a3 q2 q3) in *. set (z := reach_z a2 a3 q2 q3) in *.
  unfold two_link_q2. set (A := a2 + a3 * cos q3) in *. set (B := a3 * sin q3) in *. pose proof (sin2_cos2 q2) as H2. unfold Rsqr in H2.
  apply (atan2_cong (r ^ 2 + z ^ 2)); auto.
  - transitivity ((r ^ 2 + z ^ 2) * cos q2 + 0); [ring|]. rewrite E1, E2. 
    transitivity ((sin q2 * sin q2 + cos q2 * cos q2) * (A ^ 2 + B ^ 2) * cos q2); [ring|]. rewrite H2. ring.
  - rewrite E1, E2. transitivity ((sin q2 * sin q2 + cos q2 * cos q2) * (A ^ 2 + B ^ 2) * sin q2); [ring|]. rewrite H2. ring.
Qed.
(** stretched or folded: the error of the rounded solution *)
Lemma two_link_snap a2 a3 r z q3 c e : sin q3 = 0 -> (cos q3 = 1 \/ cos q3 = -1) -> r ^ 2 + z ^ 2 = a2 ^ 2 + a3 ^ 2 + 2 * a2 * a3 * c -> Rabs (c - cos q3) <= e ->
  let q2 := two_link_q2 a2 a3 r z (cos q3) (sin q3) in (reach_r a2 a3 q2 q3 - r) ^ 2 + (reach_z a2 a3 q2 q3 - z) ^ 2 <= 2 * Rabs (a2 * a3) * e.
Proof.
  intros S C H E q2. destruct (reach_AB a2 a3 q2 q3) as [-> ->]. unfold q2, two_link_q2. rewrite S. 
  set (A := a2 + a3 * cos q3). set (p2 := atan2 _ _).
  assert (N : Rabs (r ^ 2 + z ^ 2 - A ^ 2) <= 2 * Rabs (a2 * a3) * e).
  { replace (r ^ 2 + z ^ 2 - A ^ 2) with (2 * (a2 * a3) * (c - cos q3)) by (unfold A; rewrite H; destruct C as [-> | ->]; ring).
    rewrite !Rabs_mult, (Rabs_pos_eq 2) by lra. rewrite <- Rabs_mult. apply Rmult_le_compat_l; auto. pose proof (Rabs_pos (a2 * a3)). lra. }
  set (M := 2 * Rabs (a2 * a3) * e) in *. apply Rabs_le_inv in N.
  replace (A * cos p2 - a3 * 0 * sin p2 - r) with (A * cos p2 - r) by ring. replace (A * sin p2 + a3 * 0 * cos p2 - z) with (A * sin p2 - z) by ring.
  pose proof (sin2_cos2 p2) as H2. unfold Rsqr in H2.
  destruct (Req_dec A 0) as [A0|A0]; [rewrite A0 in *; nra|].
  destruct (Req_dec (r ^ 2 + z ^ 2) 0) as [Z0|Z0].
  { assert (r = 0) by nra. assert (z = 0) by nra. subst r z.
    replace ((A * cos p2 - 0) ^ 2 + (A * sin p2 - 0) ^ 2) with (A ^ 2 * (sin p2 * sin p2 + cos p2 * cos p2)) by ring. rewrite H2. lra. }
  assert (P : 0 < r ^ 2 + z ^ 2) by nra. set (rho := sqrt (r ^ 2 + z ^ 2)).
  assert (Hr : 0 < rho) by (apply sqrt_lt_R0; auto). assert (Hr2 : rho ^ 2 = r ^ 2 + z ^ 2) by (apply pow2_sqrt; lra).
  assert (HA : 0 < Rabs A) by (apply Rabs_pos_lt; auto). assert (HA2 : Rabs A ^ 2 = A ^ 2) by (rewrite RPow_abs; apply Rabs_pos_eq; nra).
  destruct (atan2_scaled (Rabs A * rho) (z * A - r * (a3 * 0)) (r * A + z * (a3 * 0)) p2) as [Ec Es]; auto.
  { apply Rmult_lt_0_compat; auto. }
  { rewrite Rpow_mult_distr, HA2, Hr2. ring. }
  assert (F1 : rho * (A * cos p2) = Rabs A * r).
  { apply (Rmult_eq_reg_l (Rabs A)); [|lra]. transitivity (A * (Rabs A * rho * cos p2)); [ring|]. rewrite Ec. transitivity (Rabs A ^ 2 * r); [rewrite HA2|]; ring. }
  assert (F2 : rho * (A * sin p2) = Rabs A * z).
  { apply (Rmult_eq_reg_l (Rabs A)); [|lra]. transitivity (A * (Rabs A * rho * sin p2)); [ring|]. rewrite Es. transitivity (Rabs A ^ 2 * z); [rewrite HA2|]; ring. }
  assert (G : (A * cos p2 - r) ^ 2 + (A * sin p2 - z) ^ 2 = (Rabs A - rho) ^ 2).
  { apply (Rmult_eq_reg_l (rho ^ 2)); [|nra].
    transitivity ((rho * (A * cos p2) - rho * r) ^ 2 + (rho * (A * sin p2) - rho * z) ^ 2); [ring|]. rewrite F1, F2.
    transitivity ((Rabs A - rho) ^ 2 * (r ^ 2 + z ^ 2)); [ring|]. rewrite Hr2. ring. }
  rewrite G. rewrite <- Hr2, <- HA2 in N. nra.
Qed.

(** ** Robots with the same Denavit-Hartenberg table *)
Definition dhjt (l : link) : dhlink * jtype := (l_dh l, l_jt l).
(** r is usable and has the table of r0; geometry, caches, base, tool, priority and limits are arbitrary *)
Definition like (r r0 : robot) : Prop := good r /\ map dhjt (r_links r) = map dhjt (r_links r0).
Lemma fkp_like : forall ls ls' q T, map dhjt ls = map dhjt ls' -> fkp ls q T = fkp ls' q T.
Proof.
  induction ls as [|l ls IH]; intros [|l' ls'] q T H; cbn [map] in H; try discriminate; auto. injection H as E1 E2 E3.
  cbn [fkp]. destruct q as [|qi q]; auto. assert (E : lspec l qi = lspec l' qi) by (unfold lspec; rewrite E1, E2; auto). rewrite E2, E.
  destruct (l_jt l'); auto.
Qed.
Lemma fk_like r r0 q : like r r0 -> good r0 -> r_tfb r0 = eye4 -> r_tool r0 = None ->
  snd (fk r q) = (T0 <- snd (fk r0 q) ;; Ok (tooled r (tmul (r_tfb r) T0))).
Proof.
  intros [G H] G0 B0 N0. rewrite fk_snd by auto. rewrite fk_snd by auto. rewrite (fkp_like _ _ _ _ H), fkp_base, B0.
  destruct (fkp (r_links r0) q eye4); auto. cbn [bind]. unfold tooled. rewrite N0. reflexivity.
Qed.
Lemma link_a_like r r0 i : like r r0 -> link_a r i = link_a r0 i.
Proof.
  intros [_ H]. unfold link_a, py_index. assert (E : nth_error (map dhjt (r_links r)) i = nth_error (map dhjt (r_links r0)) i) by (rewrite H; auto).
  rewrite !nth_error_map in E. destruct (nth_error (r_links r) i), (nth_error (r_links r0) i); cbn in *; try discriminate; auto. injection E as -> _. auto.
Qed.
Lemma like_refl r : good r -> like r r. Proof. split; auto. Qed.

(** ** What both arms return *)
Section Arm.
Context (a1 a2 a3 : R) (Hne : a2 * a3 <> 0).
Definition lxy (p : vec3) : R := sqrt (vx p ^ 2 + vy p ^ 2).
(** cosine of the elbow angle for a target at distance r from, and z above, the shoulder *)
Definition elbow_cos (r z : R) : R := (r ^ 2 + z ^ 2 - a2 ^ 2 - a3 ^ 2) / (2 * a2 * a3).
Definition branch (q1 r z : R) : list (list R) :=
  match elbow (elbow_cos r z) with
  | None => []
  | Some c => let s := sqrt (1 - c ^ 2) in
      [[q1; two_link_q2 a2 a3 r z c s; atan2 s c]; [q1; two_link_q2 a2 a3 r z c (- s); atan2 (- s) c]]
  end.
Definition arm_sols (p : vec3) : list (list R) :=
  branch (atan2 (vy p) (vx p)) (lxy p - a1) (vz p) ++ branch (atan2 (- vy p) (- vx p)) (- lxy p - a1) (vz p).
Definition arm_result (p : vec3) : ikres (list (list R)) := match arm_sols p with [] => IkFail | s => IkOk s end.

Lemma elbow_cos_spec r z : r ^ 2 + z ^ 2 = a2 ^ 2 + a3 ^ 2 + 2 * a2 * a3 * elbow_cos r z.
Proof. unfold elbow_cos. field. split; intros ->; apply Hne; ring. Qed.
Lemma elbow_cos_unique r z c : r ^ 2 + z ^ 2 = a2 ^ 2 + a3 ^ 2 + 2 * a2 * a3 * c -> elbow_cos r z = c.
Proof. intros H. unfold elbow_cos. rewrite H. field. split; intros ->; apply Hne; ring. Qed.

(** position of the wrist for joint angles *)
Definition arm_pos (q1 q2 q3 : R) : vec3 := V3 (cos q1 * (a1 + reach_r a2 a3 q2 q3)) (sin q1 * (a1 + reach_r a2 a3 q2 q3)) (reach_z a2 a3 q2 q3).
Definition dist2 (u v : vec3) : R := norm2 (vsub u v).

Lemma branch_sound p q1 l q : cos q1 * l = vx p -> sin q1 * l = vy p -> In q (branch q1 (l - a1) (vz p)) ->
  exists q2 q3, q = [q1; q2; q3] /\ (sin q3 <> 0 -> arm_pos q1 q2 q3 = p) /\ dist2 (arm_pos q1 q2 q3) p <= 2 * Rabs (a2 * a3) * tol /\
    (sin q3 <> 0 <-> Rabs (elbow_cos (l - a1) (vz p)) <= 1 - tol).
Proof.
  intros Hx Hy H. unfold branch in H. destruct (elbow _) as [c|] eqn:E; [|destruct H]. cbv zeta in H.
  assert (K : exists q3, q = [q1; two_link_q2 a2 a3 (l - a1) (vz p) (cos q3) (sin q3); q3] /\ cos q3 = c).
  { destruct (elbow_angles _ _ E) as (A1 & A2 & A3 & A4 & _). destruct H as [<-|[<-|[]]]; [exists (atan2 (sqrt (1 - c ^ 2)) c)|exists (atan2 (- sqrt (1 - c ^ 2)) c)]; (split; [congruence|auto]). }
  clear H. destruct K as (q3 & -> & Ec). set (q2 := two_link_q2 _ _ _ _ _ _). exists q2, q3. split; auto.
  pose proof (elbow_cos_spec (l - a1) (vz p)) as S. set (c0 := elbow_cos (l - a1) (vz p)) in *. pose proof (sin2_cos2 q3) as T3. unfold Rsqr in T3.
  assert (N : dist2 (arm_pos q1 q2 q3) p = (reach_r a2 a3 q2 q3 - (l - a1)) ^ 2 + (reach_z a2 a3 q2 q3 - vz p) ^ 2).
  { unfold dist2, arm_pos. destruct p as [x y z]. munf. subst x y. pose proof (sin2_cos2 q1) as T1. unfold Rsqr in T1.
    transitivity ((sin q1 * sin q1 + cos q1 * cos q1) * (reach_r a2 a3 q2 q3 - (l - a1)) ^ 2 + (reach_z a2 a3 q2 q3 - z) ^ 2); [ring|]. rewrite T1. ring. }
  pose proof tol_pos as TP. destruct (elbow_Some _ _ E) as [[Ec' B]|(B & C & D)].
  - assert (P : 0 < (l - a1) ^ 2 + vz p ^ 2).
    { rewrite S. apply Rabs_le_inv in B. assert (a3 <> 0) by (intros ->; apply Hne; ring). assert (0 < a3 ^ 2) by nra.
      replace (a2 ^ 2 + a3 ^ 2 + 2 * a2 * a3 * c0) with ((a2 + a3 * c0) ^ 2 + a3 ^ 2 * (1 - c0 ^ 2)) by ring. assert (0 < 1 - c0 ^ 2) by nra. assert (0 < a3 ^ 2 * (1 - c0 ^ 2)) by (apply Rmult_lt_0_compat; auto). pose proof (pow2_ge_0 (a2 + a3 * c0)). lra. }
    destruct (two_link_exact a2 a3 (l - a1) (vz p) q3) as [R1 R2]; [rewrite S; congruence|auto|]. fold q2 in R1, R2.
    split; [|split].
    + intros _. unfold arm_pos. rewrite R1, R2. destruct p as [x y z]. cbn [vx vy vz] in *. apply vec3_eq; cbn; nra.
    + rewrite N, R1, R2. pose proof (Rabs_pos (a2 * a3)). nra.
    + split; auto. intros _ S0. rewrite S0 in T3. apply Rabs_le_inv in B. rewrite <- Ec', <- Ec in B. nra.
  - assert (S0 : sin q3 = 0) by (rewrite Ec in T3; destruct C as [-> | ->]; nra). rewrite <- Ec in C, D. split; [|split].
    + intros H. contradiction.
    + rewrite N. apply (two_link_snap a2 a3 (l - a1) (vz p) q3 c0); auto.
    + split; [intros H; contradiction|lra].
Qed.
(** every solution: exact away from the stretched and folded elbow, and never off by more than sqrt(2 a2 a3 tol) *)
Lemma arm_sound p q : In q (arm_sols p) ->
  exists q1 q2 q3, q = [q1; q2; q3] /\ (sin q3 <> 0 -> arm_pos q1 q2 q3 = p) /\ dist2 (arm_pos q1 q2 q3) p <= 2 * Rabs (a2 * a3) * tol /\
    exists l, (l = lxy p \/ l = - lxy p) /\ (sin q3 <> 0 <-> Rabs (elbow_cos (l - a1) (vz p)) <= 1 - tol).
Proof.
  intros H. apply in_app_or in H. destruct H as [H|H].
  - apply branch_sound in H; [|apply polar|apply polar]. destruct H as (q2 & q3 & -> & A & B & C). exists (atan2 (vy p) (vx p)), q2, q3. split; auto. split; auto. split; auto. exists (lxy p). auto.
  - apply branch_sound in H; [|apply polar_neg|apply polar_neg]. destruct H as (q2 & q3 & -> & A & B & C). exists (atan2 (- vy p) (- vx p)), q2, q3. split; auto. split; auto. split; auto. exists (- lxy p). auto.
Qed.
(** the distance from the axis of a reached position *)
Lemma arm_pos_lxy q1 q2 q3 : let p := arm_pos q1 q2 q3 in let l := a1 + reach_r a2 a3 q2 q3 in
  (l = lxy p \/ l = - lxy p) /\ elbow_cos (l - a1) (vz p) = cos q3.
Proof.
  intros p l. split.
  - assert (E : lxy p ^ 2 = l ^ 2).
    { unfold lxy. rewrite sqrt_sum_sq. unfold p, arm_pos. cbn [vx vy]. fold l. pose proof (sin2_cos2 q1) as T1. unfold Rsqr in T1.
      transitivity ((sin q1 * sin q1 + cos q1 * cos q1) * l ^ 2); [ring|]. rewrite T1. ring. }
    assert ((l - lxy p) * (l + lxy p) = 0) by nra. apply Rmult_integral in H. destruct H; [left|right]; lra.
  - apply elbow_cos_unique. unfold p, l, arm_pos. cbn [vz]. replace (a1 + reach_r a2 a3 q2 q3 - a1) with (reach_r a2 a3 q2 q3) by ring. apply reach_cos.
Qed.
Lemma cos_reachable q : elbow (cos q) <> None.
Proof. rewrite elbow_None. pose proof tol_pos. pose proof (COS_bound q). assert (Rabs (cos q) <= 1) by (apply Rabs_le; lra). lra. Qed.
(** a reachable position has solutions *)
Lemma arm_reachable q1 q2 q3 : arm_sols (arm_pos q1 q2 q3) <> [].
Proof.
  set (p := arm_pos q1 q2 q3). destruct (arm_pos_lxy q1 q2 q3) as [L E]. fold p in L, E. set (l := a1 + reach_r a2 a3 q2 q3) in *.
  unfold arm_sols. intros N. apply app_eq_nil in N. destruct N as [N1 N2]. pose proof (cos_reachable q3) as K.
  unfold branch in N1, N2. destruct L as [L|L]; rewrite <- L, E in *; destruct (elbow (cos q3)); congruence.
Qed.
(** all of them are found, away from the stretched elbow and the vertical axis *)
Lemma arm_complete q1 q2 q3 : let p := arm_pos q1 q2 q3 in 0 < lxy p -> Rabs (cos q3) <= 1 - tol ->
  exists r1 r2 r3, In [r1; r2; r3] (arm_sols p) /\ cong q1 r1 /\ cong q2 r2 /\ cong q3 r3.
Proof.
  intros p Hp Hc. destruct (arm_pos_lxy q1 q2 q3) as [L E]. fold p in L, E. set (l := a1 + reach_r a2 a3 q2 q3) in *.
  assert (Hx : cos q1 * l = vx p) by reflexivity. assert (Hy : sin q1 * l = vy p) by reflexivity.
  assert (Er : l - a1 = reach_r a2 a3 q2 q3) by (unfold l; ring). assert (Ez : vz p = reach_z a2 a3 q2 q3) by reflexivity.
  assert (P : 0 < reach_r a2 a3 q2 q3 ^ 2 + reach_z a2 a3 q2 q3 ^ 2).
  { rewrite reach_cos. apply Rabs_le_inv in Hc. pose proof tol_pos. assert (a3 <> 0) by (intros Z; rewrite Z in Hne; apply Hne; ring). assert (0 < a3 ^ 2) by nra.
    replace (a2 ^ 2 + a3 ^ 2 + 2 * a2 * a3 * cos q3) with ((a2 + a3 * cos q3) ^ 2 + a3 ^ 2 * (1 - cos q3 ^ 2)) by ring. assert (0 < 1 - cos q3 ^ 2) by nra. assert (0 < a3 ^ 2 * (1 - cos q3 ^ 2)) by (apply Rmult_lt_0_compat; auto). pose proof (pow2_ge_0 (a2 + a3 * cos q3)). lra. }
  pose proof (two_link_unique a2 a3 q2 q3 P) as U. rewrite <- Er, <- Ez in U.
  pose proof (elbow_exact _ Hc) as X. destruct (elbow_angles _ _ X) as (A1 & A2 & A3 & A4 & A5). set (s := sqrt (1 - cos q3 ^ 2)) in *.
  assert (S : sin q3 = s \/ sin q3 = - s).
  { pose proof (sin2_cos2 q3) as T3. unfold Rsqr in T3. assert ((sin q3 - s) * (sin q3 + s) = 0) by nra. apply Rmult_integral in H. destruct H; [left|right]; lra. }
  assert (K : exists r1, cong q1 r1 /\ forall q, In q (branch r1 (l - a1) (vz p)) -> In q (arm_sols p)).
  { unfold arm_sols. destruct L as [L|L].
    - exists (atan2 (vy p) (vx p)). split; [apply (atan2_cong (lxy p)); [auto|rewrite <- L, <- Hx; ring|rewrite <- L, <- Hy; ring]|]. rewrite <- L. intros q H. apply in_or_app. auto.
    - exists (atan2 (- vy p) (- vx p)). split; [apply (atan2_cong (lxy p)); [auto|rewrite <- Hx, L; ring|rewrite <- Hy, L; ring]|]. rewrite <- L. intros q H. apply in_or_app. auto. }
  destruct K as (r1 & C1 & K). unfold branch in K. rewrite E, X in K. cbv zeta in K. fold s in K.
  destruct S as [S|S]; rewrite S in U.
  - eexists r1, _, _. split; [apply K; left; reflexivity|]. split; [auto|]. split; [exact U|]. apply cong_intro; congruence.
  - eexists r1, _, _. split; [apply K; right; left; reflexivity|]. split; [auto|]. split; [exact U|]. apply cong_intro; congruence.
Qed.
End Arm.

(** ** AnthropomorphicArm and Arm2 *)
Ltac sollist := repeat match goal with
  | |- ?x = ?x => reflexivity
  | |- Ok _ = Ok _ => f_equal
  | |- IkOk _ = IkOk _ => f_equal
  | |- _ :: _ = _ :: _ => f_equal
  | |- atan2 _ _ = atan2 _ _ => f_equal; ring
  end.
Lemma rdiv_ok x y : y <> 0 -> rdiv x y = Ok (x / y).
Proof. intros H. unfold rdiv. destruct (Req_EM_T y 0); [contradiction|auto]. Qed.
Lemma arm2_ik_result a1 a2 a3 r T : a2 * a3 <> 0 -> like r (Arm2 a1 a2 a3) -> arm2_ik r T = Ok (arm_result a1 a2 a3 (pos T)).
Proof.
  intros Hne K. assert (Hd : 2 * a2 * a3 <> 0) by (intros E; apply Hne; lra).
  unfold arm2_ik. rewrite !(link_a_like _ _ _ K). cbn [link_a py_index nth_error Arm2 robot_init r_links lr new_link l_dh da bind].
  destruct (pos T) as [x y z]. cbn [vx vy vz].
  unfold arm2_q3. rewrite !rdiv_ok by auto. cbn [bind].
  destruct (polar x y) as [P1 P2]. destruct (polar_neg x y) as [N1 N2]. set (L := sqrt (x ^ 2 + y ^ 2)) in *.
  assert (L2 : L ^ 2 = x ^ 2 + y ^ 2) by apply sqrt_sum_sq.
  set (tp := atan2 y x) in *. set (tn := atan2 (- y) (- x)) in *.
  assert (Qp : cos tp * x + sin tp * y = L). { rewrite <- P1, <- P2 at 1. pose proof (sin2_cos2 tp) as H. unfold Rsqr in H. transitivity ((sin tp * sin tp + cos tp * cos tp) * L); [ring|]. rewrite H. ring. }
  assert (Qn : cos tn * x + sin tn * y = - L). { rewrite <- N1, <- N2 at 1. pose proof (sin2_cos2 tn) as H. unfold Rsqr in H. transitivity ((sin tn * sin tn + cos tn * cos tn) * - L); [ring|]. rewrite H. ring. }
  assert (E1 : (a1 ^ 2 - a2 ^ 2 - a3 ^ 2 + x ^ 2 + y ^ 2 + z ^ 2 - 2 * a1 * sin tp * y - 2 * a1 * x * cos tp) / (2 * a2 * a3) = elbow_cos a2 a3 (L - a1) z).
  { unfold elbow_cos. f_equal. transitivity (a1 ^ 2 - a2 ^ 2 - a3 ^ 2 + (x ^ 2 + y ^ 2) + z ^ 2 - 2 * a1 * (cos tp * x + sin tp * y)); [ring|]. rewrite Qp, <- L2. ring. }
  assert (E2 : (a1 ^ 2 - a2 ^ 2 - a3 ^ 2 + x ^ 2 + y ^ 2 + z ^ 2 - 2 * a1 * sin tn * y - 2 * a1 * x * cos tn) / (2 * a2 * a3) = elbow_cos a2 a3 (- L - a1) z).
  { unfold elbow_cos. f_equal. transitivity (a1 ^ 2 - a2 ^ 2 - a3 ^ 2 + (x ^ 2 + y ^ 2) + z ^ 2 - 2 * a1 * (cos tn * x + sin tn * y)); [ring|]. rewrite Qn, <- L2. ring. }
  rewrite E1, E2. clear E1 E2 Qp Qn P1 P2 N1 N2. unfold arm_result, arm_sols, branch, lxy. cbn [vx vy vz]. fold L tp tn. f_equal.
  destruct (elbow (elbow_cos a2 a3 (L - a1) z)) as [cp|] eqn:Ep; destruct (elbow (elbow_cos a2 a3 (- L - a1) z)) as [cn|] eqn:En; cbn [app]; cbv zeta; auto.
  all: try destruct (elbow_angles _ _ Ep) as (A1 & A2 & A3 & A4 & _); try destruct (elbow_angles _ _ En) as (B1 & B2 & B3 & B4 & _).
  all: rewrite ?A2, ?A3, ?B2, ?B3; unfold two_link_q2; sollist.
Qed.
Lemma anthro_ik_result a2 a3 r T : a2 * a3 <> 0 -> like r (AnthropomorphicArm a2 a3) -> anthro_ik r T = Ok (arm_result 0 a2 a3 (pos T)).
Proof.
  intros Hne K. assert (Hd : 2 * a2 * a3 <> 0) by (intros E; apply Hne; lra).
  unfold anthro_ik. rewrite !(link_a_like _ _ _ K). cbn [link_a py_index nth_error AnthropomorphicArm robot_init r_links lr new_link l_dh da bind].
  destruct (pos T) as [x y z]. cbn [vx vy vz]. rewrite rdiv_ok by auto. cbn [bind].
  set (L := sqrt (x ^ 2 + y ^ 2)) in *. assert (L2 : L ^ 2 = x ^ 2 + y ^ 2) by apply sqrt_sum_sq.
  unfold arm_result, arm_sols, branch, lxy. cbn [vx vy vz]. fold L.
  assert (E1 : elbow_cos a2 a3 (L - 0) z = (x ^ 2 + y ^ 2 + z ^ 2 - a2 ^ 2 - a3 ^ 2) / (2 * a2 * a3)) by (unfold elbow_cos; rewrite <- L2; f_equal; ring).
  assert (E2 : elbow_cos a2 a3 (- L - 0) z = (x ^ 2 + y ^ 2 + z ^ 2 - a2 ^ 2 - a3 ^ 2) / (2 * a2 * a3)) by (unfold elbow_cos; rewrite <- L2; f_equal; ring).
  rewrite E1, E2. clear E1 E2. destruct (elbow _) as [c|] eqn:E; cbn [app]; auto. cbv zeta. unfold two_link_q2. sollist.
Qed.
Lemma anthro_fk a2 a3 q1 q2 q3 : exists F, snd (fk (AnthropomorphicArm a2 a3) [q1; q2; q3]) = Ok F /\ pos F = arm_pos 0 a2 a3 q1 q2 q3.
Proof. rewrite anthropomorphic_fk. eexists. split; [reflexivity|]. unfold anthropomorphic_form, arm_pos, reach_r, reach_z. cbn [pos]. apply vec3_eq; cbn; ring. Qed.
Lemma arm2_fk_pos a1 a2 a3 q1 q2 q3 : exists F, snd (fk (Arm2 a1 a2 a3) [q1; q2; q3]) = Ok F /\ pos F = arm_pos a1 a2 a3 q1 q2 q3.
Proof. rewrite arm2_fk. eexists. split; [reflexivity|]. unfold arm2_form, arm_pos, reach_r, reach_z. cbn [pos]. apply vec3_eq; cbn; ring. Qed.
