(** * The assertions of the test suite in the model. *)
From Coq Require Import String.
From Coq Require Import Reals Lra Psatz Lia List Bool Arith ZArith.
From Verif Require Import PyBase Cost GraphCommon Mat Util UtilProofs Geometry GeometryProofs Robot RobotProofs RobotForms Ik IkProofs KukaProofs RailProofs Path PathProofs Resources ResourcesProofs TaskProofs Extents Mount Pipeline PipelineProofs PipelineExamples OptScriptProofs Dp PyGraph CppGraph CppExamples Io IoProofs Plot PlotProofs KingpinProofs Suite.
Import ListNotations.
Local Open Scope R_scope.
Local Notation kuka6 := (KukaG 0.18 0.6 0.62 0.115).

(** ** fk, ik, fk: tests/test_robot.py TestIK *)
Lemma anthro_round a2 a3 r q1 q2 q3 T : a2 * a3 <> 0 -> like r (AnthropomorphicArm a2 a3) -> r_tfb r = eye4 -> r_tool r = None -> snd (fk r [q1; q2; q3]) = Ok T ->
  exists sols, anthro_ik r T = Ok (IkOk sols) /\ length sols = 4%nat /\
    forall s, In s sols -> exists F, snd (fk r s) = Ok F /\ dist2 (pos F) (pos T) <= 2 * Rabs (a2 * a3) * tol /\ (Rabs (cos q3) <= 1 - tol -> pos F = pos T).
Proof.
  intros N K B C E. destruct (anthro_returns a2 a3 N r K T) as [(Hc & sols & A & L)|(Hc & A)].
  - exists sols. split; auto. split; auto. intros s I. destruct (anthro_correct a2 a3 N r K T sols s B C A I) as (F & H1 & H2 & H3). exists F. split; auto. split; auto.
    intros H. apply H3. rewrite (fk_no_base r (AnthropomorphicArm a2 a3)) in E by auto using Anthro_good. destruct (anthro_fk a2 a3 q1 q2 q3) as (F' & E' & P'). rewrite E' in E. injection E as ->. rewrite P'.
    match goal with |- Rabs ?x <= _ => replace x with (cos q3); auto end. unfold arm_pos, reach_r, reach_z, norm2, vdot. cbn [vx vy vz]. rewrite ?cos_plus, ?sin_plus.
    assert (U : forall x, sin x * sin x = 1 - cos x * cos x) by (intros x; pose proof (sin2_cos2 x); unfold Rsqr in *; lra). pose proof (U q1) as U1. pose proof (U q2) as U2. pose proof (U q3) as U3.
    apply (Rmult_eq_reg_r (2 * a2 * a3)); [|lra]. unfold Rdiv. rewrite (Rmult_assoc _ (/ _)), Rinv_l, Rmult_1_r by lra. ring [U1 U2 U3].
  - exfalso. exact (anthro_unreachable a2 a3 N r K T q1 q2 q3 T B C A E eq_refl).
Qed.
Lemma arm2_round a1 a2 a3 r q1 q2 q3 T : a2 * a3 <> 0 -> like r (Arm2 a1 a2 a3) -> r_tfb r = eye4 -> r_tool r = None -> snd (fk r [q1; q2; q3]) = Ok T ->
  exists sols, arm2_ik r T = Ok (IkOk sols) /\ (length sols = 2 \/ length sols = 4)%nat /\
    forall s, In s sols -> exists s1 s2 s3 F, s = [s1; s2; s3] /\ snd (fk r s) = Ok F /\ dist2 (pos F) (pos T) <= 2 * Rabs (a2 * a3) * tol /\ (sin s3 <> 0 -> pos F = pos T).
Proof.
  intros N K B C E. destruct (arm2_returns a1 a2 a3 N r K T) as [A|(sols & A & L)].
  - exfalso. exact (arm2_unreachable a1 a2 a3 N r K T q1 q2 q3 T B C A E eq_refl).
  - exists sols. split; auto. split; auto. intros s I. exact (arm2_correct a1 a2 a3 N r K T sols s B C A I).
Qed.
Lemma wrist_round d3 w t1 t2 t3 T : like (w_rob w) (SphericalWrist d3) -> rigid (r_tfb (w_rob w)) -> r_tool (w_rob w) = None -> snd (fk (w_rob w) [t1; t2; t3]) = Ok T -> sin t2 <> 0 ->
  exists w' s, wrist_ik w T = (w', IkOk s) /\ read w' s <> [] /\ forall q, In q (read w' s) -> exists F, snd (fk (w_rob w') q) = Ok F /\ rot F = rot T.
Proof.
  intros K B C E S. destruct (wrist_finds_all d3 w T t1 t2 t3 T K B C E eq_refl S) as (w' & s & u & A & I & _). exists w', s. split; auto. split; [intros Z; rewrite Z in I; exact I|].
  intros q Iq. assert (RT : rigid T) by (apply (fk_rigid (w_rob w) [t1; t2; t3]); auto; [apply K|unfold rigid_tool; rewrite C; exact Logic.I]).
  apply (wrist_correct d3 w T w' s q K B C (rigid_rot _ RT) A Iq).
  destruct (wrist_fk_rot d3 (w_rob w) t1 t2 t3 K B C) as (F' & E' & ER). rewrite E' in E. injection E as ->. unfold approach.
  assert (X : mapply (mtr (rot (r_tfb (w_rob w)))) (col2 (rot T)) = col2 (zyz t1 t2 t3)).
  { transitivity (col2 (mmul (mtr (rot (r_tfb (w_rob w)))) (rot T))); [generalize (rot (r_tfb (w_rob w))) (rot T); intros; vring|]. rewrite ER, <- mmul_assoc, (rot_orth _ (rigid_rot _ B)), mmul_1_l. reflexivity. }
  rewrite X. clear - S. unfold zyz, rot_z, rot_y. munf. pose proof (sin2_cos2 t1) as U. unfold Rsqr in U.
  match goal with |- 0 < ?x => replace x with (sin t2 * sin t2 * (sin t1 * sin t1 + cos t1 * cos t1)) by ring end. rewrite U. pose proof (Rsqr_pos_lt _ S). unfold Rsqr in *. lra.
Qed.
Lemma kuka_round a1 a2 d4 d6 k q1 q2 q3 q4 q5 q6 T : a2 * d4 <> 0 -> kuka_ok a1 a2 d4 d6 k -> rigid (r_tfb (k_rob k)) -> rigid_tool (k_rob k) -> snd (fk (k_rob k) [q1; q2; q3; q4; q5; q6]) = Ok T ->
  exists sols, snd (kuka_ik k T) = Ok (IkOk (Own sols)) /\ (length sols = 4 \/ length sols = 8)%nat /\
    forall s, In s sols -> exists s1 s2 s3 s4 s5 s6 F, s = [s1; s2; s3; s4; s5; s6] /\ snd (fk (k_rob k) s) = Ok F /\
      (sin s5 <> 0 -> cos s3 <> 0 -> F = T) /\ (sin s5 <> 0 -> rot F = rot T /\ dist2 (pos F) (pos T) <= 2 * Rabs (a2 * d4) * tol).
Proof.
  intros N K B C E. destruct (kuka_returns a1 a2 d4 d6 N k T K) as [A|(sols & A & L)].
  - exfalso. exact (kuka_unreachable a1 a2 d4 d6 N k T q1 q2 q3 q4 q5 q6 T K B C A E eq_refl).
  - exists sols. split; auto. split; auto. intros s I. assert (RT : rigid T) by (apply (fk_rigid (k_rob k) [q1; q2; q3; q4; q5; q6]); auto; apply (ko_rob _ _ _ _ _ K)).
    exact (kuka_correct a1 a2 d4 d6 N k T (Own sols) (k_wrist k) s K B C RT A I).
Qed.
Lemma rail_round rl q0 q1 q2 q3 q4 q5 q6 T : rail_ok 0.18 0.6 0.62 0.115 rl -> rigid (r_tfb (rl_rob rl)) -> rigid_tool (rl_rob rl) -> snd (fk (rl_rob rl) [q0; q1; q2; q3; q4; q5; q6]) = Ok T ->
  exists s, snd (rail_ik rl T q0) = Ok (IkOk s) /\ (forall w, read w s <> []) /\
    forall w q, In q (read w s) -> exists s1 s2 s3 s4 s5 s6 F, q = [q0; s1; s2; s3; s4; s5; s6] /\ snd (fk (rl_rob rl) q) = Ok F /\
      (sin s5 <> 0 -> cos s3 <> 0 -> F = T) /\ (sin s5 <> 0 -> rot F = rot T /\ dist2 (pos F) (pos T) <= 2 * Rabs (0.6 * 0.62) * tol).
Proof.
  intros K B C E. destruct (rail_returns _ _ _ _ rl T q0 K) as ([|s] & A).
  - exfalso. exact (rail_unreachable rl T q0 q1 q2 q3 q4 q5 q6 T K B C A E eq_refl).
  - exists s. split; auto. split.
    + intros w. destruct (rail_ik_spec _ _ _ _ rl T q0 K) as (_ & _ & _ & X). rewrite X in A. destruct (kuka_sols _ _ _ _ _) as [|x l]; [discriminate|]. injection A as <-. discriminate.
    + intros w q I. assert (RT : rigid T) by (apply (fk_rigid (rl_rob rl) [q0; q1; q2; q3; q4; q5; q6]); auto; apply K). exact (rail_correct rl T q0 s w q K B C RT A I).
Qed.

(** ** Collisions of the Kuka: tests/test_robot.py TestCollisionChecking, tests/test_collision_checking.py *)
Lemma kuka6_basic : good kuka6 /\ joints_ok kuka6 /\ rigid_links kuka6 /\ solid kuka6.
Proof.
  split; [apply kukaG_good|]. destruct (kuka_rigid 0.18 0.6 0.62 0.115) as [RL J]. split; auto. split; auto. split; [apply rigid_eye|]. split; auto. split; [intros b E; discriminate|intros t tip E; discriminate].
Qed.
Lemma in_link s x y z F m : rigid F -> Rabs (vx m - x) <= dx s / 2 -> Rabs (vy m - y) <= dy s / 2 -> Rabs (vz m - z) <= dz s / 2 -> in_coll (coll1 s (pose_x 0 x y z)) (Some F) (tapply F m).
Proof.
  intros HF H1 H2 H3. exists s, (pose_x 0 x y z). split; [exists 0%nat; split; reflexivity|]. cbn [place]. apply in_box_move; [exact HF|apply pose_x_rigid|]. apply pose_x0_box; auto.
Qed.
(** the boxes of the arm stretched forward from the raised elbow *)
Lemma up_bounds i l x : nth_error (r_links kuka6) i = Some l -> in_coll (l_geom l) (Some (frame kuka6 q_up i)) x ->
  match i with
  | 0%nat => -0.1 <= vy x <= 0 /\ vz x <= 0.1
  | 1%nat => vx x <= 0.28 /\ 0 <= vy x <= 0.1
  | 2%nat => vx x <= 0.6 /\ -0.1 <= vy x <= 0 /\ 0.5 <= vz x
  | 3%nat => -0.05 <= vy x <= 0.05 /\ 0.55 <= vz x
  | 4%nat => 0.8 <= vx x /\ -0.05 <= vy x <= 0.05 /\ 0.55 <= vz x
  | _ => 0.885 <= vx x /\ -0.05 <= vy x <= 0.05 /\ 0.55 <= vz x
  end.
Proof.
  intros El Hi. assert (Li : (i < 6)%nat) by (change 6%nat with (length (r_links kuka6)); apply nth_error_Some; congruence).
  destruct (planar_frames 0 (PI / 2) 0 0) as (F0 & F1 & F2 & F3 & F4 & F5). cbv zeta in F0, F1, F2, F3, F4, F5. fold q_up in F0, F1, F2, F3, F4, F5.
  replace (PI / 2 + 0 + 0) with (PI / 2) in * by ring. replace (PI / 2 + 0) with (PI / 2) in * by ring.
  assert (RF : rigid (frame kuka6 q_up i)) by apply rigid6.
  destruct Hi as (s & tf & Hm & Bx).
  destruct i as [|[|[|[|[|[|i]]]]]]; [..|lia]; cbn in El; injection El as <-; cbn [l_geom] in Hm;
    (destruct Hm as ([|[|k]] & M1 & M2); [|cbn in M1; discriminate M1|cbn in M1; discriminate M1]); injection M1 as <-; injection M2 as <-;
    (apply box_local in Bx; [|exact RF]); destruct Bx as ([mx my mz] & -> & B1 & B2 & B3); cbn [vx vy vz dx dy dz] in B1, B2, B3; apply Rabs_le_inv in B1; apply Rabs_le_inv in B2; apply Rabs_le_inv in B3; clear RF.
  - rewrite F0. clear - B1 B2 B3. unfold up_frame. rewrite cos_0, sin_0. munf. lra.
  - rewrite F1. clear - B1 B2 B3. unfold up_frame. rewrite cos_0, sin_0, cos_PI2, sin_PI2. munf. lra.
  - rewrite F2. clear - B1 B2 B3. unfold arm2_rot. rewrite cos_0, sin_0, cos_PI2, sin_PI2. munf. lra.
  - rewrite F3. clear - B1 B2 B3. unfold up_frame. rewrite cos_0, sin_0, cos_PI2, sin_PI2. munf. lra.
  - rewrite F4. clear - B1 B2 B3. unfold arm2_rot, kuka_centre. rewrite Rplus_0_r, cos_0, sin_0, cos_PI2, sin_PI2. munf. lra.
  - rewrite F5. clear - B1 B2 B3. unfold arm2_rot, kuka_centre. rewrite Rplus_0_r, cos_0, sin_0, cos_PI2, sin_PI2. munf. lra.
Qed.
Lemma up_self : self_clear kuka6 q_up.
Proof.
  split; [|intros tool tip i l x E; discriminate]. intros i j li lj x Ei Ej M Hi Hj.
  assert (Li : (i < 6)%nat) by (change 6%nat with (length (r_links kuka6)); apply nth_error_Some; congruence).
  assert (Lj : (j < 6)%nat) by (change 6%nat with (length (r_links kuka6)); apply nth_error_Some; congruence).
  apply (up_bounds i li x Ei) in Hi. apply (up_bounds j lj x Ej) in Hj. clear Ei Ej.
  destruct i as [|[|[|[|[|[|i]]]]]]; [..|lia]; (destruct j as [|[|[|[|[|[|j]]]]]]; [..|lia]); try discriminate M; cbn in Hi, Hj; lra.
Qed.
Lemma self_false prim q : exact_prim prim -> (6 <= length q)%nat -> self_clear kuka6 q -> snd (is_in_self_collision prim kuka6 q) = Ok false.
Proof.
  intros X L (S1 & _). destruct kuka6_basic as (G & J & RL & _). destruct (is_in_self_correct prim kuka6 q G J L ltac:(intros H; elim H; reflexivity)) as (b & E & Hb). rewrite E. f_equal. destruct b; auto. exfalso.
  destruct (proj1 Hb eq_refl) as [(i & j & li & lj & Ei & Ej & M & C)|(t & tip & i & l & E' & _)]; [|discriminate].
  assert (R0 : forall i l, nth_error (r_links kuka6) i = Some l -> rigid_coll (l_geom l)) by (intros; unfold rigid_links in RL; rewrite Forall_forall in RL; apply RL; eapply nth_error_In; eauto).
  apply (collision_points prim) in C; eauto; try apply rigid6. destruct C as (x & C1 & C2). exact (S1 i j li lj x Ei Ej M C1 C2).
Qed.
Lemma self_true prim q i j li lj x : exact_prim prim -> (6 <= length q)%nat -> nth_error (r_links kuka6) i = Some li -> nth_error (r_links kuka6) j = Some lj -> r_mat kuka6 i j = true ->
  in_coll (l_geom li) (Some (frame kuka6 q i)) x -> in_coll (l_geom lj) (Some (frame kuka6 q j)) x -> snd (is_in_self_collision prim kuka6 q) = Ok true.
Proof.
  intros X L Ei Ej M Hi Hj. destruct kuka6_basic as (G & J & RL & _). destruct (is_in_self_correct prim kuka6 q G J L ltac:(intros H; elim H; reflexivity)) as (b & E & Hb). rewrite E. f_equal. apply Hb. left.
  exists i, j, li, lj. split; auto. split; auto. split; auto.
  assert (R0 : forall i l, nth_error (r_links kuka6) i = Some l -> rigid_coll (l_geom l)) by (intros; unfold rigid_links in RL; rewrite Forall_forall in RL; apply RL; eapply nth_error_In; eauto).
  apply (collision_points prim); eauto; apply rigid6.
Qed.
Lemma obj1_fills : fills obj1 [(V3 0.65 (-0.15) 0.25, V3 0.85 0.15 0.75); (V3 0.7 0.35 0.45, V3 0.8 0.65 0.55)].
Proof. apply fills_intro; [repeat constructor; apply upright_pose|]. cbn [combine map fst snd]. unfold lower, upper, pose_x. cbn [pos vx vy vz dx dy dz]. repeat (apply f_equal2 || apply f_equal3); try reflexivity; lra. Qed.
Lemma obj2_fills : fills obj2 [(V3 0.2 (-0.85) 0.25, V3 0.4 (-0.55) 0.75); (V3 0.7 0.35 0.45, V3 0.8 0.65 0.55)].
Proof. apply fills_intro; [repeat constructor; apply upright_pose|]. cbn [combine map fst snd]. unfold lower, upper, pose_x. cbn [pos vx vy vz dx dy dz]. repeat (apply f_equal2 || apply f_equal3); try reflexivity; lra. Qed.
Lemma table_fills : fills table_scene [(V3 0.55 (-0.25) (-0.05), V3 1.05 0.25 0.05)].
Proof. apply fills_intro; [repeat constructor; apply upright_pose|]. cbn [combine map fst snd]. unfold lower, upper, pose_x. cbn [pos vx vy vz dx dy dz]. repeat (apply f_equal2 || apply f_equal3); try reflexivity; lra. Qed.
Lemma objs_rigid : rigid_coll obj1 /\ rigid_coll obj2 /\ rigid_coll table_scene.
Proof. repeat split; repeat (apply Forall_cons; [apply pose_x_rigid|]); apply Forall_nil. Qed.
Lemma up_obj1 prim : exact_prim prim -> snd (robot_collision prim kuka6 q_up obj1) = Ok true.
Proof.
  intros X. destruct kuka6_basic as (G & J & RL & _). destruct objs_rigid as (R1 & _ & _).
  apply (hit_in_links prim kuka6 q_up obj1 (V3 0.7 0 0.6) X G J); auto; [intros _; cbn; lia|apply rigid_eye| |].
  - exists 3%nat. eexists. split; [reflexivity|]. cbn [l_geom]. destruct (planar_frames 0 (PI / 2) 0 0) as (_ & _ & _ & F3 & _ & _). cbv zeta in F3. fold q_up in F3.
    replace (V3 0.7 0 0.6) with (tapply (frame kuka6 q_up 3) (V3 0 0.1 0)).
    2:{ rewrite F3, Rplus_0_r. unfold up_frame. rewrite cos_0, sin_0, cos_PI2, sin_PI2. munf. apply vec3_eq; cbn [vx vy vz]; lra. }
    apply in_link; [apply rigid6|..]; cbn [vx vy vz dx dy dz]; apply Rabs_le; lra.
  - apply obj1_fills. apply Exists_cons_hd. unfold between. cbn [fst snd vx vy vz]. lra.
Qed.
Lemma up_obj2 prim : exact_prim prim -> snd (robot_collision prim kuka6 q_up obj2) = Ok false.
Proof.
  intros X. destruct kuka6_basic as (G & J & RL & So). destruct objs_rigid as (_ & R2 & _).
  assert (C : hit prim kuka6 obj2 q_up = false).
  { apply free_iff_clear; auto; [cbn; lia|]. split; [|intros _; apply up_self]. intros x [(b & E & _)|[(i & l & E & H)|(t & tip & E & _)]] Hx; [discriminate| |discriminate].
    apply (up_bounds i l x E) in H. apply obj2_fills in Hx. inversion Hx as [? ? B|? ? B']; subst; [|inversion B' as [? ? B|? ? B'']; subst; [|inversion B'']]; unfold between in B; cbn [fst snd vx vy vz] in B;
    destruct i as [|[|[|[|[|i]]]]]; cbn in H; lra. }
  unfold hit in C. destruct (collision_correct prim kuka6 q_up obj2 G J ltac:(cbn; lia) ltac:(cbn; lia)) as (b & E & _). rewrite E in *. congruence.
Qed.
Lemma cos_range2 x : 0 <= x <= 2 -> 1 - x ^ 2 / 2 + x ^ 4 / 24 - x ^ 6 / 720 <= cos x <= 1 - x ^ 2 / 2 + x ^ 4 / 24 - x ^ 6 / 720 + x ^ 8 / 40320.
Proof.
  intros H. destruct (pre_cos_bound x 1) as [CL CU]; try lra. split.
  - eapply Rle_trans; [|exact CL]. unfold cos_approx, cos_term. cbn [sum_f_R0 Nat.mul Nat.add]. facts. lra.
  - eapply Rle_trans; [exact CU|]. unfold cos_approx, cos_term. cbn [sum_f_R0 Nat.mul Nat.add]. facts. lra.
Qed.
Lemma sin_from_cos x a b : 0 <= x <= 2 -> 0 <= a -> a <= cos x <= b -> b <= 1 -> 1 - b * b <= sin x * sin x <= 1 - a * a /\ 0 <= sin x.
Proof.
  intros H A C B. pose proof (sin2_cos2 x) as U. unfold Rsqr in U. split; [nra|]. apply sin_ge_0; pose proof PI2_3_2; lra.
Qed.
Lemma folded_values : 0.0700 <= cos 1.5 <= 0.0709 /\ 0.997 <= sin 1.5 <= 1 /\ 0.267 <= cos 1.3 <= 0.2677 /\ 0.963 <= sin 1.3 <= 0.964 /\ 0.98 <= cos 0.2 <= 0.9801 /\ 0.198 <= sin 0.2 <= 0.199.
Proof.
  pose proof (cos_range2 1.5 ltac:(lra)) as A. pose proof (cos_range2 1.3 ltac:(lra)) as B. pose proof (cos_range 0.2 ltac:(lra)) as C. pose proof (sin_range 0.2 ltac:(lra)) as D.
  assert (A' : 0.0700 <= cos 1.5 <= 0.0709) by lra. assert (B' : 0.267 <= cos 1.3 <= 0.2677) by lra.
  destruct (sin_from_cos 1.5 0.07 0.0709) as [A1 A2]; try lra. destruct (sin_from_cos 1.3 0.267 0.2677) as [B1 B2]; try lra.
  split; [lra|]. split; [nra|]. split; [lra|]. split; [nra|]. lra.
Qed.
Lemma folded_hits prim : exact_prim prim -> snd (is_in_self_collision prim kuka6 q_folded) = Ok true.
Proof.
  intros X. destruct (planar_frames 0 1.5 (-1.3) (-1.5)) as (_ & F1 & _ & _ & F4 & _). cbv zeta in F1, F4. fold q_folded in F1, F4. destruct folded_values as (V1 & V2 & V3' & V4 & V5 & V6).
  set (x := tapply (frame kuka6 q_folded 4) (V3 (-0.04) (-0.02) 0.08)).
  assert (Ex : x = V3 (0.18 + 0.6 * cos 1.5 + 0.62 * sin 0.2 - 0.04 * cos 1.3 - 0.08 * sin 1.3) 0.02 (0.6 * sin 1.5 - 0.62 * cos 0.2 + 0.04 * sin 1.3 - 0.08 * cos 1.3)).
  { unfold x. rewrite F4. unfold arm2_rot, kuka_centre. replace (1.5 + -1.3 + -1.5) with (Ropp 1.3) by lra. replace (1.5 + -1.3) with 0.2 by lra. rewrite cos_neg, sin_neg, cos_0, sin_0. munf. apply vec3_eq; cbn [vx vy vz]; lra. }
  apply (self_true prim q_folded 1 4 (nth 1 (r_links kuka6) (lr 0 0 0 0)) (nth 4 (r_links kuka6) (lr 0 0 0 0)) x X); [cbn; lia|reflexivity|reflexivity|reflexivity| |].
  2:{ unfold x. cbn [nth r_links KukaG set_geom]. change (l_geom (nth 4 (r_links kuka6) (lr 0 0 0 0))) with (coll1 (Shape 0.1 0.1 0.085) (pose_x 0 0 0 (0.085 / 2))). apply in_link; [apply rigid6|..]; cbn [vx vy vz dx dy dz]; apply Rabs_le; lra. }
  change (l_geom (nth 1 (r_links kuka6) (lr 0 0 0 0))) with (coll1 (Shape 0.8 0.2 0.1) (pose_x 0 (-0.3) 0 (-0.05))).
  set (u := 0.62 * sin 0.2 - 0.04 * cos 1.3 - 0.08 * sin 1.3). set (v := - 0.62 * cos 0.2 + 0.04 * sin 1.3 - 0.08 * cos 1.3).
  assert (Bu : 0.034 <= u <= 0.037) by (unfold u; lra). assert (Bv : -0.592 <= v <= -0.589) by (unfold v; lra).
  replace x with (tapply (frame kuka6 q_folded 1) (V3 (cos 1.5 * u + sin 1.5 * v) (- sin 1.5 * u + cos 1.5 * v) (-0.02))).
  - apply in_link; [apply rigid6|..]; cbn [vx vy vz dx dy dz]; apply Rabs_le; clear Ex; clearbody u v; nra.
  - rewrite Ex, F1. unfold up_frame. rewrite cos_0, sin_0. munf. pose proof (sin2_cos2 1.5) as U. unfold Rsqr in U. assert (U' : sin 1.5 * sin 1.5 = 1 - cos 1.5 * cos 1.5) by lra.
    apply vec3_eq; cbn [vx vy vz].
    + transitivity ((sin 1.5 * sin 1.5 + cos 1.5 * cos 1.5) * u + (0.18 + 0.6 * cos 1.5)); [ring|rewrite U; unfold u; ring].
    + lra.
    + transitivity ((sin 1.5 * sin 1.5 + cos 1.5 * cos 1.5) * v + 0.6 * sin 1.5); [ring|rewrite U; unfold v; lra].
Qed.
Lemma table_values : 0.57 <= sin 0.61114407 <= 0.58 /\ 0.81 <= cos 0.61114407 <= 0.82 /\ 0.05 <= cos 1.51761627 <= 0.056 /\ 0.99 <= cos 0.08307708 <= 1 /\ 0.08 <= sin 0.08307708 <= 0.09.
Proof.
  pose proof (sin_range 0.61114407 ltac:(lra)). pose proof (cos_range 0.61114407 ltac:(lra)). pose proof (cos_range2 1.51761627 ltac:(lra)). pose proof (cos_range 0.08307708 ltac:(lra)). pose proof (sin_range 0.08307708 ltac:(lra)). lra.
Qed.
Lemma table_hits prim : exact_prim prim -> snd (robot_collision prim kuka6 q_table table_scene) = Ok true.
Proof.
  intros X. destruct kuka6_basic as (G & J & RL & _). destruct objs_rigid as (_ & _ & R3).
  assert (F2 : frame kuka6 q_table 2 = M4 (arm2_rot (-0.08307708) (2 * 1.51761627)) (V3 (cos (-0.08307708) * (0.18 + 0.6 * cos (-0.61114407))) (sin (-0.08307708) * (0.18 + 0.6 * cos (-0.61114407))) (0.6 * sin (-0.61114407))) v0 1).
  { transitivity (frame kuka6 [-0.08307708; -0.61114407; 3.64637661; 0; 0; 0] 2); [reflexivity|]. destruct (planar_frames (-0.08307708) (-0.61114407) 3.64637661 0) as (_ & _ & F2 & _). cbv zeta in F2. rewrite F2. replace (-0.61114407 + 3.64637661) with (2 * 1.51761627) by lra. reflexivity. }
  destruct table_values as (V1 & V2 & V3' & V4 & V5).
  set (x := tapply (frame kuka6 q_table 2) (V3 0 0 0.345)).
  apply (hit_in_links prim kuka6 q_table table_scene x X G J); auto; [intros _; cbn; lia|apply rigid_eye| |].
  - exists 2%nat. eexists. split; [reflexivity|]. cbn [l_geom]. apply in_link; [apply rigid6|..]; cbn [vx vy vz dx dy dz]; apply Rabs_le; lra.
  - apply table_fills. apply Exists_cons_hd. unfold between. cbn [fst snd vx vy vz]. unfold x. rewrite F2. unfold arm2_rot. clear - V1 V2 V3' V4 V5.
    replace (-0.08307708) with (Ropp 0.08307708) by lra. replace (-0.61114407) with (Ropp 0.61114407) by lra. rewrite !cos_neg, !sin_neg. rewrite sin_2a, cos_2a_cos. munf.
    assert (W : 0 <= sin 1.51761627 <= 1) by (split; [apply sin_ge_0; pose proof PI2_3_2; lra|apply SIN_bound]).
    set (h := cos 1.51761627) in *. set (k := sin 1.51761627) in *. assert (P : 0 <= k * h <= 0.056) by nra. assert (P2 : 0 <= h * h <= 0.0032) by nra.
    set (e := 0.18 + 0.6 * cos 0.61114407 + 0.345 * (2 * (k * h))). assert (Pe : 0.66 <= e <= 0.72) by (unfold e; lra).
    split; [|split].
    + match goal with |- _ <= ?t <= _ => replace t with (cos 0.08307708 * e) by (unfold e; ring) end. clearbody e. nra.
    + match goal with |- _ <= ?t <= _ => replace t with (- (sin 0.08307708 * e)) by (unfold e; ring) end. clearbody e. nra.
    + lra.
Qed.

Lemma self_tests prim : exact_prim prim -> snd (is_in_self_collision prim kuka6 q_up) = Ok false /\ snd (is_in_self_collision prim kuka6 q_folded) = Ok true.
Proof. intros X. split; [apply self_false; [exact X|cbn; lia|exact up_self]|apply folded_hits, X]. Qed.
Lemma collision_tests prim : exact_prim prim ->
  snd (robot_collision prim kuka6 q_up obj1) = Ok true /\ snd (robot_collision prim kuka6 q_up obj2) = Ok false /\ snd (robot_collision prim kuka6 q_table table_scene) = Ok true.
Proof. intros X. split; [apply up_obj1, X|]. split; [apply up_obj2, X|apply table_hits, X]. Qed.

(** ** Geometry: tests/test_geometry.py *)
Lemma test_vertices : get_vertices (Shape 1 2 3) eye4 = [V3 (-0.5) 1 1.5; V3 (-0.5) 1 (-1.5); V3 (-0.5) (-1) 1.5; V3 (-0.5) (-1) (-1.5); V3 0.5 1 1.5; V3 0.5 1 (-1.5); V3 0.5 (-1) 1.5; V3 0.5 (-1) (-1.5)].
Proof. unfold get_vertices. cbn [dx dy dz]. munf. repeat (apply f_equal2; [apply vec3_eq; cbn [vx vy vz]; lra|]). reflexivity. Qed.
Lemma test_moved : get_vertices (Shape 1 2 3) (M4 mid (V3 10.5 0 0) v0 1) = [V3 10 1 1.5; V3 10 1 (-1.5); V3 10 (-1) 1.5; V3 10 (-1) (-1.5); V3 11 1 1.5; V3 11 1 (-1.5); V3 11 (-1) 1.5; V3 11 (-1) (-1.5)].
Proof. unfold get_vertices. cbn [dx dy dz]. munf. repeat (apply f_equal2; [apply vec3_eq; cbn [vx vy vz]; lra|]). reflexivity. Qed.
Lemma test_turned : get_vertices (Shape 1 2 3) (M4 (M3 1 0 0 0 0 (-1) 0 1 0) v0 v0 1) = [V3 (-0.5) (-1.5) 1; V3 (-0.5) 1.5 1; V3 (-0.5) (-1.5) (-1); V3 (-0.5) 1.5 (-1); V3 0.5 (-1.5) 1; V3 0.5 1.5 1; V3 0.5 (-1.5) (-1); V3 0.5 1.5 (-1)].
Proof. unfold get_vertices. cbn [dx dy dz]. munf. repeat (apply f_equal2; [apply vec3_eq; cbn [vx vy vz]; lra|]). reflexivity. Qed.
Lemma test_poly : get_normals eye4 = axes6 /\ pA (get_polyhedron (Shape 1 2 3) eye4) = axes6 /\ pb (get_polyhedron (Shape 1 2 3) eye4) = [0.5; 0.5; 1; 1; 1.5; 1.5].
Proof.
  assert (N : get_normals eye4 = axes6) by (unfold get_normals, axes6; munf; repeat (apply f_equal2; [apply vec3_eq; cbn [vx vy vz]; lra|]); reflexivity).
  split; [exact N|]. unfold get_polyhedron. cbn [pA pb dx dy dz]. rewrite N. split; [reflexivity|]. unfold axes6. cbn [map combine fst snd]. munf. repeat (apply f_equal2; [lra|]). reflexivity.
Qed.
Lemma test_poly_moved tf : pA (get_polyhedron (Shape 1 2 3) tf) = map (mapply (rot tf)) axes6 /\
  pb (get_polyhedron (Shape 1 2 3) tf) = map (fun p => fst p + vdot (snd p) (pos tf)) (combine [0.5; 0.5; 1; 1; 1.5; 1.5] (map (mapply (rot tf)) axes6)).
Proof.
  split; [reflexivity|]. unfold get_polyhedron, axes6. cbn [pb dx dy dz]. unfold get_normals. cbn [map combine fst snd]. repeat (apply f_equal2; [apply f_equal2; [lra|reflexivity]|]). reflexivity.
Qed.
Lemma test_edge0 : length (get_edges (Shape 1 2 3) eye4) = 12%nat /\ nth_error (get_edges (Shape 1 2 3) eye4) 0 = Some (nth 0 (get_vertices (Shape 1 2 3) eye4) v0, nth 1 (get_vertices (Shape 1 2 3) eye4) v0).
Proof. split; reflexivity. Qed.
Lemma test_boxes prim : exact_prim prim ->
  shape_collision prim (Shape 1 1 1) eye4 (Shape 1 1 2) eye4 = true /\
  shape_collision prim (Shape 1 1 1) eye4 (Shape 1 2 1) (pose_z (PI / 4) 0.7 0.7 0) = true /\
  shape_collision prim (Shape 1 1 1) (pose_z 0 (-1) (-1) 0) (Shape 1 1 2) (pose_z (PI / 4) (-2) (-2) 0) = false.
Proof.
  intros X. set (k := sqrt 2 / 2).
  assert (K : k * k = 0.5). { unfold k. pose proof (sqrt_sqrt 2 ltac:(lra)). lra. } assert (K0 : 0.7 < k < 0.71). { assert (0 <= k) by (unfold k; pose proof (sqrt_pos 2); lra). nra. }
  assert (C : cos (PI / 4) = k) by (rewrite cos_PI4; unfold k; pose proof (sqrt_sqrt 2 ltac:(lra)); pose proof (sqrt_lt_R0 2 ltac:(lra)); apply (Rmult_eq_reg_r (sqrt 2)); [|lra]; field_simplify; lra).
  assert (S : sin (PI / 4) = k) by (rewrite sin_cos_PI4; exact C).
  split; [|split].
  - apply (X _ eye4 _ eye4); try apply rigid_eye. exists v0. split; exists v0; (split; [unfold local_in; cbn [dx dy dz vx vy vz v0]; rewrite Rabs_R0; lra|munf; apply vec3_eq; cbn [vx vy vz]; lra]).
  - apply (X _ eye4 _ (pose_z (PI / 4) 0.7 0.7 0)); [apply rigid_eye|apply pose_z_rigid|]. exists (V3 0.5 0.5 0). split.
    + exists (V3 0.5 0.5 0). split; [unfold local_in; cbn [dx dy dz vx vy vz]; rewrite Rabs_R0, !Rabs_pos_eq; lra|munf; apply vec3_eq; cbn [vx vy vz]; lra].
    + exists (V3 (- (0.4 * k)) 0 0). split.
      * unfold local_in. cbn [dx dy dz vx vy vz]. rewrite Rabs_R0, Rabs_Ropp, Rabs_pos_eq; lra.
      * unfold pose_z. cbn. unfold rot_z. rewrite ?C, ?S. munf. apply vec3_eq; cbn [vx vy vz]; nra.
  - destruct (shape_collision prim _ _ _ _) eqn:E; auto. exfalso. apply (X _ (pose_z 0 (-1) (-1) 0) _ (pose_z (PI / 4) (-2) (-2) 0)) in E; try apply pose_z_rigid.
    destruct E as (x & (l1 & (L1 & L2 & _) & ->) & (l2 & (M1 & M2 & _) & E)). cbn [dx dy dz] in *. apply Rabs_le_inv in L1, L2, M1, M2. assert (E1 := f_equal vx E). assert (E2 := f_equal vy E). clear E. destruct l1 as [a b c], l2 as [d e f]. cbn [vx vy vz] in *. unfold pose_z, rot_z in E1, E2. munf.
    rewrite ?C, ?S, ?cos_0, ?sin_0 in E1, E2. nra.
Qed.

Lemma vertex_tests :
  get_vertices (Shape 1 2 3) eye4 = [V3 (-0.5) 1 1.5; V3 (-0.5) 1 (-1.5); V3 (-0.5) (-1) 1.5; V3 (-0.5) (-1) (-1.5); V3 0.5 1 1.5; V3 0.5 1 (-1.5); V3 0.5 (-1) 1.5; V3 0.5 (-1) (-1.5)] /\
  get_vertices (Shape 1 2 3) (M4 mid (V3 10.5 0 0) v0 1) = [V3 10 1 1.5; V3 10 1 (-1.5); V3 10 (-1) 1.5; V3 10 (-1) (-1.5); V3 11 1 1.5; V3 11 1 (-1.5); V3 11 (-1) 1.5; V3 11 (-1) (-1.5)] /\
  get_vertices (Shape 1 2 3) (M4 (M3 1 0 0 0 0 (-1) 0 1 0) v0 v0 1) = [V3 (-0.5) (-1.5) 1; V3 (-0.5) 1.5 1; V3 (-0.5) (-1.5) (-1); V3 (-0.5) 1.5 (-1); V3 0.5 (-1.5) 1; V3 0.5 1.5 1; V3 0.5 (-1.5) (-1); V3 0.5 1.5 (-1)] /\
  length (get_edges (Shape 1 2 3) eye4) = 12%nat /\ nth_error (get_edges (Shape 1 2 3) eye4) 0 = Some (V3 (-0.5) 1 1.5, V3 (-0.5) 1 (-1.5)).
Proof.
  split; [exact test_vertices|]. split; [exact test_moved|]. split; [exact test_turned|]. split; [reflexivity|]. rewrite (proj2 test_edge0), test_vertices. reflexivity.
Qed.
Lemma poly_tests : get_normals eye4 = axes6 /\ pA (get_polyhedron (Shape 1 2 3) eye4) = axes6 /\ pb (get_polyhedron (Shape 1 2 3) eye4) = [0.5; 0.5; 1; 1; 1.5; 1.5] /\
  forall tf, pA (get_polyhedron (Shape 1 2 3) tf) = map (mapply (rot tf)) axes6 /\
    pb (get_polyhedron (Shape 1 2 3) tf) = map (fun p => fst p + vdot (snd p) (pos tf)) (combine [0.5; 0.5; 1; 1; 1.5; 1.5] (map (mapply (rot tf)) axes6)) /\
    get_polyhedrons (Coll [Shape 1 2 3] [tf]) = [get_polyhedron (Shape 1 2 3) tf].
Proof.
  destruct test_poly as (H1 & H2 & H3). split; auto. split; auto. split; auto. intros tf. destruct (test_poly_moved tf) as (G1 & G2). split; auto.
Qed.

(** ** Files and path points: tests/test_io.py, tests/test_path.py *)
Lemma test_tol : exists t, new_tol 0 4 None 5 = Ok t /\ tol_discretise t = Ok [0; 1; 2; 3; 4].
Proof. eexists. split; [reflexivity|]. unfold tol_discretise. cbn [t_samples t_lower t_upper]. change (5 <? 0)%Z with false. change (Z.to_nat 5) with 5%nat. cbn [linspace]. change (seq 0 4) with [0; 1; 2; 3]%nat. cbn [map app INR]. f_equal. repeat (apply f_equal2; [lra|]). reflexivity. Qed.
Lemma test_task_path : exists ps sc, parse_task_data test_task = Ok (map Io.PFree ps, sc) /\ length ps = 10%nat /\ nth_error ps 0 = Some [0.8; -0.2; 0.2] /\ nth_error ps 9 = Some [0.8; 0.2; 0.2] /\ c_s sc = [Shape 0.5 0.5 0.1].
Proof.
  unfold parse_task_data, test_task, jf3. cbn -[linspace create_line create_box].
  destruct (line_spec (JObj [("xyz"%string, JList [JFloat 0.8; JFloat (-0.2); JFloat 0.2]); ("rpy"%string, JList [JFloat 0; JFloat 0; JFloat 0])]) _ (JList [JFloat 0.8; JFloat 0.2; JFloat 0.2]) [0.8; -0.2; 0.2] [0.8; 0.2; 0.2] 10 eq_refl eq_refl eq_refl eq_refl) as (ps & E & L & _ & H0 & H9).
  change (Z.of_nat 10) with 10%Z in E. rewrite E. cbn [bind create_orientation_free_path].
  unfold create_box. cbn -[create_transform]. unfold create_transform. cbn [set_pos bind]. rewrite rot3_Ok. cbn [bind map fst snd c_s]. exists ps. eexists. split; [reflexivity|]. split; [exact L|]. split; [apply H0; lia|]. split; [apply H9; lia|reflexivity].
Qed.
Lemma quats_exist rnd n : (n <= length rnd)%nat -> Forall (fun r => length r = 3%nat) rnd ->
  exists qs, mapM (fun r => match r with [r1; r2; r3] => Ok (quat_of r1 r2 r3) | _ => Raise ValueError end) (firstn n rnd) = Ok qs /\ length qs = n.
Proof.
  revert n. induction rnd as [|r rnd IH]; intros [|n] L H; cbn in L; try lia; [exists []; auto|exists []; auto|]. inversion H; subst.
  destruct (IH n ltac:(lia) ltac:(auto)) as (qs & E & Lq). destruct r as [|a [|b [|c [|d r]]]]; cbn in *; try lia. rewrite E. cbn [bind]. eexists. split; [reflexivity|]. cbn. lia.
Qed.
(** tests/test_path.py TestSamplers: the number of samples is n, of the kind asked for *)
Lemma samplers ypr fuel rnd n : (n <= length rnd)%nat -> Forall (fun r => length r = 3%nat) rnd ->
  exists qs, length qs = n /\ sample_SO3 ypr fuel rnd n "quat" "random" = Ok (SQuat qs) /\ sample_SO3 ypr fuel rnd n "transform" "random" = Ok (STf (map qtransform qs)) /\ sample_SO3 ypr fuel rnd n "rpy" "random" = Ok (SRpy (map ypr qs)).
Proof.
  intros L H. destruct (quats_exist rnd n L H) as (qs & E & Lq). exists qs. split; auto. unfold sample_SO3. cbn [String.eqb Ascii.eqb Bool.eqb].
  assert (L' : (length rnd <? n)%nat = false) by (apply Nat.ltb_ge; lia). cbn -[Nat.ltb mapM]. rewrite L'. cbn [bind]. rewrite E. cbn. auto.
Qed.
(** tests/test_path.py TestFreeOrientationPt *)
Lemma free_shape ypr fuel rnd n x y z : (1 <= n <= length rnd)%nat -> Forall (fun r => length r = 3%nat) rnd ->
  exists rows, free_samples ypr fuel rnd [x; y; z] n None None = Ok (SRows rows) /\ length rows = n /\ Forall (fun r => length r = 6%nat /\ firstn 3 r = [x; y; z]) rows.
Proof.
  intros L H. destruct (samplers ypr fuel rnd n ltac:(lia) H) as (qs & Lq & _ & _ & E). unfold free_samples. cbn [String.eqb Ascii.eqb Bool.eqb]. rewrite E. cbn [bind].
  destruct qs as [|q0 qs]; [cbn in Lq; lia|]. eexists. split; [reflexivity|]. rewrite !map_length. split; [exact Lq|]. apply Forall_forall. intros r Ir. apply in_map_iff in Ir. destruct Ir as (a & <- & _). split; reflexivity.
Qed.

(** ** Graphs: tests/test_dp.py, tests/test_graph.py, tests/test_pygraph.py *)
Local Open Scope Z_scope.
Lemma dp_tests :
  calculate_value_function dp_costs4 = Ok ([[0]; [0; 0; 0]; [0; 0; 1]; [0; 0]; [0]]%nat, [[Some 2870]; [Some 2320; Some 2220; Some 2150]; [Some 1640; Some 1570; Some 1660]; [Some 1030; Some 1390]; [Some 0]]) /\
  apply_cost_function small_data l1_matrix = dp_costs /\
  calculate_value_function dp_costs = Ok ([[1; 2]; [0; 0; 0]; [0; 0]]%nat, [[Some 4; Some 3]; [Some 4; Some 3; Some 2]; [Some 0; Some 0]]) /\
  (r <- calculate_value_function dp_costs ;; extract_shortest_path small_data (fst r) (snd r)) = Ok [[0; 1]; [1; 1]; [0; 2]].
Proof. repeat split; vm_compute; reflexivity. Qed.
Lemma graph_test : @graph_calls ZCost Z 1 zsq [0; 0; 0; 1] [1; -1; 1; 0; 1; 1] [0; 2; 2; 2] = Ok (Some [1; 2; 0]).
Proof. vm_compute. reflexivity. Qed.
Lemma pygraph_tests :
  PyGraph.get_shortest_path l1_cost py_data1 = Ok (SpOk [[0; 0]; [1; 0]; [2; 2]; [4; 5]; [4; 6]; [5; 11]] (Some 16 : ZCost)) /\
  PyGraph.get_shortest_path l1_cost py_data3 = Ok SpFail /\
  (exists g, get_shortest_path_segments l1_cost 6 py_data1 (Some 5 : ZCost) = Ok (SegSol g) /\ sg_success g = true /\ sg_path g = [[0; 0]; [1; 0]; [0; 2]] /\ sg_cost g = Some 4 /\ sg_single g = Some false /\
     sg_split_points g = Some [3; 3]%nat /\ sg_extra g = Some [([[5; 9]; [5; 10]; [5; 11]], Some 2 : ZCost)]) /\
  get_shortest_path_segments l1_cost 6 py_data1 (Some 2 : ZCost) = Ok SegStuck /\
  (exists g, get_shortest_path_segments l1_cost 6 py_data1 (Some 20 : ZCost) = Ok (SegSol g) /\ sg_success g = true /\ sg_path g = [[0; 0]; [1; 0]; [2; 2]; [4; 5]; [4; 6]; [5; 11]] /\ sg_cost g = Some 16 /\ sg_single g = Some true) /\
  (exists g, get_shortest_path_segments l1_cost 6 py_data4 (Some 20 : ZCost) = Ok (SegSol g) /\ sg_success g = false /\ sg_path g = [[0; 0]; [1; 0]; [2; 2]; [4; 5]; [4; 6]] /\ sg_cost g = Some 10).
Proof.
  split; [vm_compute; reflexivity|]. split; [vm_compute; reflexivity|]. split; [eexists; split; [vm_compute; reflexivity|repeat split]|]. split; [vm_compute; reflexivity|].
  split; eexists; (split; [vm_compute; reflexivity|repeat split]).
Qed.
