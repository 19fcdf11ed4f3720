(** * Kuka plans after the conversion to float32 (C114). *)
From Coq Require Import String Reals Lra Lia Psatz List Bool Arith ZArith Machin.
From Flocq Require Import Core Relative.
From Verif Require Import PyBase Cost CostFloat GraphCommon CppGraph CppMain Mat Util UtilProofs Geometry GeometryProofs Robot RobotProofs Ik IkProofs KukaProofs RailProofs Path PathProofs Planning PlanningProofs PlanningCart Pipeline PipelineProofs Motion.
Import ListNotations.
Local Open Scope R_scope.

(** round to nearest even in binary32 *)
Definition f32 (x : R) : R := rnd (-149) 24 x.
Definition ulp_bound : R := 3 / 10000000.
Lemma PI_upper : PI <= 3.24.
Proof. destruct (PI_2_3_7_ineq 0) as [_ H]. cbn in H. unfold tg_alt, PI_2_3_7_tg, Ratan_seq in H. cbn in H. lra. Qed.
Lemma f32_error x : Rabs x <= 3 * PI / 2 -> Rabs (f32 x - x) <= ulp_bound.
Proof.
  intros H. unfold f32, rnd. destruct (error_N_FLT radix2 (-149) 24 ltac:(lia) (fun z => negb (Z.even z)) x) as (eps & eta & E1 & E2 & _ & E).
  change (round radix2 (FLT_exp (-149) 24) ZnearestE x) with (round radix2 (FLT_exp (-149) 24) (Znearest (fun z => negb (Z.even z))) x). rewrite E.
  replace (x * (1 + eps) + eta - x) with (x * eps + eta) by ring. eapply Rle_trans; [apply Rabs_triang|]. rewrite Rabs_mult.
  pose proof PI_upper as P.
  assert (B1 : / 2 * bpow radix2 (- (24) + 1) <= / 16000000). { change (- (24) + 1)%Z with (-23)%Z. cbn. lra. }
  assert (B2 : / 2 * bpow radix2 (-149) <= / 1000000000). { apply Rle_trans with (/ 2 * bpow radix2 (-30)); [apply Rmult_le_compat_l; [lra|]; apply bpow_le; lia|cbn; lra]. }
  assert (X : Rabs x * Rabs eps <= 4.86 * / 16777216). { apply Rmult_le_compat; try apply Rabs_pos; [lra|]. eapply Rle_trans; [exact E1|]. change (- (24) + 1)%Z with (-23)%Z. cbn. lra. }
  unfold ulp_bound. lra.
Qed.

(** ** The bounds for a Kuka table *)
Definition kuka_size (a1 a2 d4 d6 : R) : R := Rabs a1 + 2 * Rabs a2 + 3 * Rabs d4 + 5 * Rabs d6.
Lemma span_like : forall ls ls' q, map dhjt ls = map dhjt ls' -> span ls q = span ls' q.
Proof.
  induction ls as [|l ls IH]; intros [|l' ls'] q H; cbn [map] in H; try discriminate; auto. injection H as E1 E2 E3. destruct q as [|qi q]; auto. cbn [span]. rewrite E1, E2, (IH ls'); auto.
Qed.
Lemma move_like : forall ls ls' q q' t, map dhjt ls = map dhjt ls' -> move_bound ls q q' t = move_bound ls' q q' t.
Proof.
  induction ls as [|l ls IH]; intros [|l' ls'] q q' t H; cbn [map] in H; try discriminate; auto. injection H as E1 E2 E3. destruct q as [|qi q], q' as [|qi' q']; auto.
  cbn [move_bound]. rewrite E1, E2, (IH ls'), (span_like ls ls'); auto.
Qed.
Lemma move_le : forall ls q q' t e, 0 <= t -> Forall2 (fun x y => Rabs (x - y) <= e) q q' -> 0 <= e ->
  move_bound ls q q' t <= e * move_bound ls q (map (fun x => x - 1) q) t.
Proof.
  assert (S0 : forall ls q, 0 <= span ls q). { induction ls as [|l ls IH]; intros [|x q]; cbn [span]; try lra. pose proof (IH q). pose proof (Rabs_pos (da (l_dh l))). pose proof (Rabs_pos (match l_jt l with JP => x | _ => dd (l_dh l) end)). lra. }
  intros ls q q' t e T H E. revert ls. induction H as [|x y q q' Hx H IH]; intros [|l ls]; cbn [move_bound map]; try lra. pose proof (IH ls) as I1.
  replace (Rabs (x - (x - 1))) with 1 by (replace (x - (x - 1)) with 1 by ring; rewrite Rabs_R1; auto). rewrite Rmult_1_l, Rmult_plus_distr_l. apply Rplus_le_compat; auto. apply Rmult_le_compat_r; auto.
  pose proof (S0 ls q). pose proof (Rabs_pos (da (l_dh l))). destruct (l_jt l); lra.
Qed.
Section K.
Context (a1 a2 d4 d6 : R).
Lemma kuka_move_links q q' t : Forall2 (fun x y => Rabs (x - y) <= ulp_bound) q q' -> length q = 6%nat -> 0 <= t ->
  move_bound (r_links (Kuka a1 a2 d4 d6)) q q' t <= ulp_bound * (kuka_size a1 a2 d4 d6 + 6 * t).
Proof.
  intros H L T. eapply Rle_trans; [apply move_le; eauto; unfold ulp_bound; lra|]. apply Rmult_le_compat_l; [unfold ulp_bound; lra|].
  destruct q as [|q1 [|q2 [|q3 [|q4 [|q5 [|q6 [|]]]]]]]; try discriminate L. clear.
  unfold Kuka, robot_init, lr, new_link. cbn [r_links move_bound span map l_dh l_jt da dd].
  repeat match goal with |- context [Rabs (?x - (?x - 1))] => replace (Rabs (x - (x - 1))) with 1 by (replace (x - (x - 1)) with 1 by ring; rewrite Rabs_R1; auto) end. rewrite Rabs_R0. unfold kuka_size. lra.
Qed.
Lemma move_firstn : forall n ls q q' t, 0 <= t -> move_bound (firstn n ls) q q' t <= move_bound ls q q' t.
Proof.
  assert (S0 : forall ls q, 0 <= span ls q). { induction ls as [|l ls IH]; intros [|x q]; cbn [span]; try lra. pose proof (IH q). pose proof (Rabs_pos (da (l_dh l))). pose proof (Rabs_pos (match l_jt l with JP => x | _ => dd (l_dh l) end)). lra. }
  assert (M0 : forall ls q q' t, 0 <= t -> 0 <= move_bound ls q q' t).
  { induction ls as [|l ls IH]; intros [|x q] [|y q'] t T; cbn [move_bound]; try lra. pose proof (IH q q' t T). assert (0 <= Rabs (x - y) * match l_jt l with JP => 1 | _ => Rabs (da (l_dh l)) + span ls q + t end); [|lra].
    apply Rmult_le_pos; [apply Rabs_pos|]. pose proof (S0 ls q). pose proof (Rabs_pos (da (l_dh l))). destruct (l_jt l); lra. }
  assert (S1 : forall n ls q, span (firstn n ls) q <= span ls q). { induction n as [|n IH]; intros [|l ls] [|x q]; cbn [firstn span]; try lra; [pose proof (S0 (l :: ls) (x :: q)) as H; cbn [span] in H; lra|]. pose proof (IH ls q). lra. }
  induction n as [|n IH]; intros [|l ls] [|x q] [|y q'] t T; cbn [firstn move_bound]; try lra; [pose proof (M0 (l :: ls) (x :: q) (y :: q') t T) as H; cbn [move_bound] in H; lra|].
  apply Rplus_le_compat; auto. apply Rmult_le_compat_l; [apply Rabs_pos|]. pose proof (S1 n ls q). destruct (l_jt l); lra.
Qed.

Context (Hne : a2 * d4 <> 0) (k : kuka) (Hk : kuka_ok a1 a2 d4 d6 k).
Notation rob := (k_rob k).
Definition size : R := kuka_size a1 a2 d4 d6.

Lemma rounded q : Forall (fun x => Rabs x <= 3 * PI / 2) q -> Forall2 (fun x y => Rabs (x - y) <= ulp_bound) q (map f32 q).
Proof. induction 1; cbn [map]; constructor; auto. rewrite Rabs_minus_sym. apply f32_error. auto. Qed.
Lemma rounded_frame q i x : rigid (r_tfb rob) -> length q = 6%nat -> Forall (fun x => Rabs x <= 3 * PI / 2) q ->
  len (vsub (tapply (frame rob (map f32 q) i) x) (tapply (frame rob q i) x)) <= ulp_bound * (size + 6 * len x).
Proof.
  intros B L H. rewrite len_sym.
  eapply Rle_trans; [apply frame_move; auto; rewrite map_length; auto|]. eapply Rle_trans; [apply move_firstn, len_nonneg|].
  rewrite (move_like _ (r_links (Kuka a1 a2 d4 d6))) by apply (ko_rob _ _ _ _ _ Hk). apply kuka_move_links; auto using len_nonneg, rounded.
Qed.

Lemma rounded_fk q x : rigid (r_tfb rob) -> rigid_tool rob -> length q = 6%nat -> Forall (fun x => Rabs x <= 3 * PI / 2) q ->
  exists F F', snd (fk rob q) = Ok F /\ snd (fk rob (map f32 q)) = Ok F' /\ len (vsub (tapply F' x) (tapply F x)) <= ulp_bound * (size + 6 * (tip_len rob + len x)).
Proof.
  intros B Ht L H. pose proof (ko_rob _ _ _ _ _ Hk) as Lk. destruct (fk_move rob q (map f32 q) x) as (F & F' & E & E' & M); auto; [apply Lk|eapply like_joints; eauto; apply Kuka_joints| |rewrite map_length; auto|].
  { rewrite (like_ndof _ _ Lk), L. cbn. lia. }
  exists F, F'. split; auto. split; auto. rewrite len_sym. eapply Rle_trans; [exact M|]. rewrite (move_like _ (r_links (Kuka a1 a2 d4 d6))) by apply Lk. apply kuka_move_links; auto using rounded.
  assert (0 <= tip_len rob) by (unfold tip_len; destruct (r_tool rob) as [[? ?]|]; [apply len_nonneg|lra]). pose proof (len_nonneg x). lra.
Qed.
Lemma kuka_free_bounded prim scene T q : In q (kuka_free prim k scene T) -> Forall (fun x => Rabs x <= 3 * PI / 2) q /\ length q = 6%nat.
Proof.
  unfold kuka_free. destruct (snd (kuka_ik k T)) as [[|s]| |] eqn:E; try (intros []; fail). intros H. apply filter_In in H. destruct H as [H _].
  destruct (kuka_limits a1 a2 d4 d6 Hne k T s _ q Hk E H) as (q1 & q2 & q3 & q4 & q5 & q6 & -> & B1 & B2 & B3 & B4 & B5 & B6). split; auto. pose proof PI_RGT_0. repeat (apply Forall_cons; [apply Rabs_le; lra|]). constructor.
Qed.

(** the pose of a row of the plan, off by at most e and the rounding *)
Definition near_pose (row q : list R) (T : mat4) : Prop :=
  exists q1 q2 q3 q4 q5 q6 F, q = [q1; q2; q3; q4; q5; q6] /\ row = map f32 q /\ snd (fk rob row) = Ok F /\
    (sin q5 <> 0 -> cos q3 <> 0 -> forall x, len (vsub (tapply F x) (tapply T x)) <= ulp_bound * (size + 6 * (tip_len rob + len x))) /\
    (sin q5 <> 0 -> forall x, len (vsub (tapply F x) (tapply T x)) <= sqrt (2 * Rabs (a2 * d4) * tol) + ulp_bound * (size + 6 * (tip_len rob + len x))).
(** every point of every link is close to where it is for a configuration without collision *)
Definition near_clear (scene : coll) (row q : list R) : Prop :=
  clear rob scene q /\ forall i x, len (vsub (tapply (frame rob row i) x) (tapply (frame rob q i) x)) <= ulp_bound * (size + 6 * len x).

Lemma kuka_plan_rounded {K : CostStruct} prim (sq_acc : K -> R -> R -> R -> K) pq ypr fuel n scene path method ow rows c :
  exact_prim prim -> solid rob -> rigid_coll scene -> Forall (pt_ok n) path ->
  snd (kuka_plan prim f32 sq_acc pq (pt_samples ypr fuel n) scene path method ow k) = Ok (GspOk rows c) ->
  Forall2 (fun tp row => exists q T, allowed tp T /\ near_pose row q T /\ near_clear scene row q) path rows.
Proof.
  intros X S C P. rewrite (kuka_plan_eq prim f32 a1 a2 d4 d6 Hne k Hk). destruct (mapM (pt_samples ypr fuel n) path) as [D| |] eqn:E; cbn [bind]; try discriminate. intros H.
  apply (plan_rows sq_acc pq f32 (flat_map (kuka_free prim k scene)) _ _ _ _ _ _ _ E) in H. revert P. clear E. induction H as [|tp row path' rows' (Ts & q & E1 & E2 & ->) _ IH]; intros P; [constructor|].
  inversion P as [|? ? P1 P2]; subst. constructor; auto. apply in_flat_map in E2. destruct E2 as (T & I1 & I2). destruct (pt_allowed ypr fuel n tp P1) as (Ts' & E' & A). rewrite E1 in E'. injection E' as <-.
  pose proof (A T I1) as AT. destruct (kuka_free_bounded _ _ _ _ I2) as [Bd L6]. destruct (kuka_free_sound prim a1 a2 d4 d6 Hne k Hk scene T q X S C (proj1 AT) I2) as [R Cl].
  exists q, T. split; auto. split; [|split; auto; intros i x; apply rounded_frame; auto; apply S].
  destruct R as (q1 & q2 & q3 & q4 & q5 & q6 & F0 & -> & E0 & R1 & R2).
  destruct (rounded_fk [q1; q2; q3; q4; q5; q6] v0 (proj1 S) (solid_tool _ S) L6 Bd) as (_ & F & _ & EF & _).
  assert (M : forall x, len (vsub (tapply F x) (tapply F0 x)) <= ulp_bound * (size + 6 * (tip_len rob + len x))).
  { intros x. destruct (rounded_fk [q1; q2; q3; q4; q5; q6] x (proj1 S) (solid_tool _ S) L6 Bd) as (G & G' & EG & EG' & M). congruence. }
  exists q1, q2, q3, q4, q5, q6, F. split; auto. split; auto. split; auto. split.
  - intros H5 H3 x. rewrite <- (R1 H5 H3). auto.
  - intros H5 x. destruct (R2 H5) as [Er Ed]. eapply Rle_trans; [apply (len_vsub3 _ (tapply F0 x))|]. rewrite Rplus_comm. apply Rplus_le_compat; auto.
    unfold tapply. rewrite Er. replace (vsub _ _) with (vsub (pos F0) (pos T)) by (generalize (mapply (rot T) x) (pos F0) (pos T); intros [] [] []; apply vec3_eq; cbn; ring).
    unfold len. apply sqrt_le_1_alt. exact Ed.
Qed.
End K.

(** for the default dimensions the flange centre is within 1.2 micrometres, within 0.9 mm at a stretched elbow *)
Lemma default_numbers : ulp_bound * (kuka_size 0.18 0.6 0.62 0.115 + 6 * (0 + 0)) <= 1.2 / 1000000 /\ sqrt (2 * Rabs (0.6 * 0.62) * tol) <= 0.9 / 1000.
Proof.
  split.
  - unfold kuka_size, ulp_bound. rewrite !Rabs_pos_eq by lra. lra.
  - rewrite Rabs_pos_eq by lra. unfold tol. rewrite <- (sqrt_square (0.9 / 1000)) by lra. apply sqrt_le_1_alt. lra.
Qed.
