(** * Proofs about the Puma and the forward kinematics of the tests. *)
From Coq Require Import Reals Lra List Bool Arith Lia.
From Verif Require Import PyBase Mat Util UtilProofs Geometry GeometryProofs Robot RobotProofs RobotForms Puma.
Import ListNotations.
Local Open Scope R_scope.

Lemma zyz_form a b c : zyz a b c =
  M3 (cos a * cos b * cos c - sin a * sin c) (- cos a * cos b * sin c - sin a * cos c) (cos a * sin b)
     (sin a * cos b * cos c + cos a * sin c) (- sin a * cos b * sin c + cos a * cos c) (sin a * sin b)
     (- sin b * cos c) (sin b * sin c) (cos b).
Proof. unfold zyz, rot_z, rot_y, mmul. cbn [m00 m01 m02 m10 m11 m12 m20 m21 m22]. f_equal; ring. Qed.
Lemma oracle_fk a1 a2 d4 d6 q1 q2 q3 q4 q5 q6 : snd (fk (Kuka a1 a2 d4 d6) [q1; q2; q3; q4; q5; q6]) = Ok (fk_kuka a1 a2 d4 d6 q1 q2 q3 q4 q5 q6).
Proof.
  rewrite kuka_fk. f_equal. unfold kuka_form, fk_kuka, kuka_centre. rewrite zyz_form. cbv zeta. generalize (q2 + q3) as w. intros w.
  unfold arm2_rot, col2, mmul, vadd, vscale. cbn [rot pos brow bww vx vy vz m00 m01 m02 m10 m11 m12 m20 m21 m22].
  generalize (sin q1) (cos q1) (sin q2) (cos q2) (sin w) (cos w) (sin q4) (cos q4) (sin q5) (cos q5) (sin q6) (cos q6). intros.
  f_equal; [f_equal; ring|f_equal; ring].
Qed.

(** ** Puma *)
Definition puma_form (a3 a4 d1 d3 d4 q1 q2 q3 q4 q5 q6 : R) : mat4 :=
  tmul (tmul (tmul (tmul (dhm 0 (- PI / 2) d1 (q1 + q2)) (dhm a3 0 d3 q3)) (dhm a4 (- PI / 2) d4 q4)) (dhm 0 (- PI / 2) 0 q5)) (dhm 0 (PI / 2) 0 q6).
Lemma first_two d1 q1 q2 : tmul (dhm 0 0 d1 q1) (dhm 0 (- PI / 2) 0 q2) = dhm 0 (- PI / 2) d1 (q1 + q2).
Proof. chain. trigring. Qed.
Lemma puma_fk a3 a4 d1 d3 d4 q1 q2 q3 q4 q5 q6 : snd (fk (Puma a3 a4 d1 d3 d4) [q1; q2; q3; q4; q5; q6]) = Ok (puma_form a3 a4 d1 d3 d4 q1 q2 q3 q4 q5 q6).
Proof.
  rewrite fk_snd by (apply robot_init_good; repeat constructor). cbn [Puma robot_init r_links r_tfb fkp lr lp new_link l_jt bind tooled r_tool]. f_equal.
  unfold lspec, lr, lp, new_link. cbn [l_jt l_dh da dalpha dd dtheta]. rewrite tmul_1_l, first_two. reflexivity.
Qed.
Lemma puma_redundant a3 a4 d1 d3 d4 q1 q2 q3 q4 q5 q6 t :
  snd (fk (Puma a3 a4 d1 d3 d4) [q1 + t; q2 - t; q3; q4; q5; q6]) = snd (fk (Puma a3 a4 d1 d3 d4) [q1; q2; q3; q4; q5; q6]).
Proof. rewrite !puma_fk. unfold puma_form. replace (q1 + t + (q2 - t)) with (q1 + q2) by ring. reflexivity. Qed.

(** the axis of the joint behind frame T *)
Definition on_axis (T : mat4) (p : vec3) : Prop := exists t, p = vadd (pos T) (vscale t (col2 (rot T))).
Lemma on_axis_move A T p : rigid T -> on_axis T p -> on_axis (tmul A T) (tapply A p).
Proof.
  intros H [t ->]. exists t. destruct A as [A a b w], T as [B c b' w'], H as [_ Hb Hw]. cbn in Hb, Hw. subst. unfold tapply. cbn [rot pos brow bww].
  destruct A, B, a, c. apply vec3_eq; cbn; ring.
Qed.
Lemma puma_frames a3 a4 d1 d3 d4 q1 q2 q3 q4 q5 q6 (q := [q1; q2; q3; q4; q5; q6]) (r := Puma a3 a4 d1 d3 d4) :
  frame r q 3 = tmul (frame r q 2) (dhm a4 (- PI / 2) d4 q4) /\ frame r q 4 = tmul (frame r q 2) (tmul (dhm a4 (- PI / 2) d4 q4) (dhm 0 (- PI / 2) 0 q5)).
Proof. split; [reflexivity|]. rewrite <- tmul_assoc. reflexivity. Qed.

Lemma tmul_inv_l A B : rigid A -> tmul (tf_inverse A) (tmul A B) = B.
Proof. intros H. rewrite <- tmul_assoc, tf_inverse_l, tmul_1_l by auto. reflexivity. Qed.
Lemma on_axis_local A T p : rigid A -> rigid T -> (on_axis (tmul A T) p <-> on_axis T (tapply (tf_inverse A) p)).
Proof.
  intros H HT. split; intros Hp.
  - apply (on_axis_move (tf_inverse A)) in Hp; [|apply rigid_tmul; auto]. rewrite tmul_inv_l in Hp; auto.
  - apply (on_axis_move A) in Hp; auto. rewrite rigid_tapply_inv in Hp; auto.
Qed.
Lemma wrist_axes a d q4 q5 : (exists p, on_axis eye4 p /\ on_axis (dhm a (- PI / 2) d q4) p /\ on_axis (tmul (dhm a (- PI / 2) d q4) (dhm 0 (- PI / 2) 0 q5)) p) <-> a = 0.
Proof.
  rewrite !dhm_dhx, !dhx_m, tmulb. unfold on_axis, eye4, mid, v0, mmul, mapply, vadd, vscale, col2. cbn [rot pos brow bww vx vy vz m00 m01 m02 m10 m11 m12 m20 m21 m22].
  pose proof (sin2_cos2 q4) as H4. pose proof (sin2_cos2 q5) as H5. unfold Rsqr in *.
  generalize dependent (sin q4). generalize dependent (cos q4). generalize dependent (sin q5). generalize dependent (cos q5). intros c5 s5 H5 c4 s4 H4. split.
  - intros (p & [t Et] & [u Eu] & [v Ev]). rewrite Et in Eu, Ev. inversion Eu as [[E1 E2 E3]]. inversion Ev as [[E4 E5 E6]].
    assert (F1 : a * c4 = u * s4) by lra. assert (F2 : a * s4 = - (u * c4)) by lra.
    replace a with (a * c4 * c4 + a * s4 * s4) by (transitivity (a * (s4 * s4 + c4 * c4)); [ring|rewrite H4; ring]). rewrite F1, F2. ring.
  - intros ->. exists (V3 0 0 d). repeat split; [exists d|exists 0|exists 0]; f_equal; ring.
Qed.
Lemma puma_wrist a3 a4 d1 d3 d4 q1 q2 q3 q4 q5 q6 (q := [q1; q2; q3; q4; q5; q6]) (r := Puma a3 a4 d1 d3 d4) :
  (exists p, on_axis (frame r q 2) p /\ on_axis (frame r q 3) p /\ on_axis (frame r q 4) p) <-> a4 = 0.
Proof.
  assert (G : rigid (frame r q 2)) by (apply frame_rigid, rigid_eye). destruct (puma_frames a3 a4 d1 d3 d4 q1 q2 q3 q4 q5 q6) as [E3 E4]. unfold q, r in *. rewrite E3, E4.
  rewrite <- (wrist_axes a4 d4 q4 q5). generalize dependent (frame (Puma a3 a4 d1 d3 d4) [q1; q2; q3; q4; q5; q6] 2). intros A H _ _.
  pose proof (dhm_rigid a4 (- PI / 2) d4 q4) as D4. pose proof (rigid_tmul _ _ D4 (dhm_rigid 0 (- PI / 2) 0 q5)) as D5.
  generalize dependent (tmul (dhm a4 (- PI / 2) d4 q4) (dhm 0 (- PI / 2) 0 q5)). generalize dependent (dhm a4 (- PI / 2) d4 q4). intros B HB C HC.
  assert (E0 : forall p, on_axis A p <-> on_axis (tmul A eye4) p) by (intros p; rewrite tmul_1_r; tauto). pose proof rigid_eye as I4. split.
  - intros (p & H2 & H3 & H4). exists (tapply (tf_inverse A) p). apply E0 in H2. rewrite (on_axis_local A) in H2, H3, H4 by assumption. auto.
  - intros (p & H2 & H3 & H4). exists (tapply A p). rewrite E0, !(on_axis_local A) by assumption. rewrite rigid_tapply_inv' by assumption. auto.
Qed.
Lemma puma_no_check prim rest a3 a4 d1 d3 d4 q scene : (6 <= length q)%nat -> snd (geoms_collision prim puma_geoms rest (Puma a3 a4 d1 d3 d4) q scene) = Raise TypeError.
Proof.
  intros H. unfold geoms_collision. cbn [Puma robot_init r_base].
  assert (E : snd (fk_all_links (Puma a3 a4 d1 d3 d4) q) = Ok (map (frame (Puma a3 a4 d1 d3 d4) q) (seq 0 6))).
  { apply frames_ok; auto; [apply robot_init_good; repeat constructor|repeat constructor; discriminate]. }
  unfold Puma in *. cbn [robot_init r_base]. destruct (fk_all_links _ q) as [r1 fs] eqn:F. cbn [snd] in E. rewrite E.
  assert (P : r_prio r1 = seq 0 6). { unfold fk_all_links in F. destruct (frames_loop _ _ _). inversion F. reflexivity. }
  rewrite P. reflexivity.
Qed.
(** what follows the loop over the links, robot.py:207-215 *)
Definition after_links prim (gs : list coll) (scene : coll) (r : robot) (tfs : list mat4) : res bool :=
  hit <- match r_tool r with Some (tool, _) => tf_tool <- py_last tfs ;; Ok (is_in_collision prim tool scene (Some tf_tool) None) | None => Ok false end ;;
  if hit then Ok true else if r_self r then check_self prim r tfs gs else Ok false.
Lemma proper_loop prim gs tfs scene p : geom_loop prim (map Proper gs) tfs scene p = prio_loop prim gs tfs scene p.
Proof.
  induction p as [|i p IH]; [reflexivity|]. cbn [geom_loop prio_loop]. unfold py_index. rewrite nth_error_map. destruct (nth_error gs i) as [c|]; cbn [option_map bind]; [|reflexivity].
  destruct (nth_error tfs i) as [tf|]; cbn [bind geom_collision]; [|reflexivity]. destruct (is_in_collision prim c scene (Some tf) None); [reflexivity|exact IH].
Qed.
Lemma proper_check prim r q scene : geoms_collision prim (map Proper (map l_geom (r_links r))) (after_links prim (map l_geom (r_links r)) scene) r q scene = robot_collision prim r q scene.
Proof.
  unfold geoms_collision, robot_collision. destruct (match r_base r with Some b => _ | None => false end); [reflexivity|]. destruct (fk_all_links r q) as [r1 [tfs|e|]]; try reflexivity. rewrite proper_loop. reflexivity.
Qed.
