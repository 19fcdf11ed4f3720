(** * Closed forms of the forward kinematics of the bundled robots. *)
From Coq Require Import Reals Lra List Bool Arith Lia.
From Verif Require Import PyBase Mat Util UtilProofs Geometry Robot RobotProofs.
Import ListNotations.
Local Open Scope R_scope.

(** ** Base and tool frame factor out *)
Lemma fkp_base : forall ls q T, fkp ls q T = (T0 <- fkp ls q eye4 ;; Ok (tmul T T0)).
Proof.
  induction ls as [|l ls IH]; intros q T; cbn [fkp].
  - cbn [bind]. rewrite tmul_1_r. reflexivity.
  - destruct q as [|qi q]; [reflexivity|]. assert (E : fkp ls q (tmul T (lspec l qi)) = (T0 <- fkp ls q (tmul eye4 (lspec l qi)) ;; Ok (tmul T T0))).
    { rewrite (IH q (tmul T (lspec l qi))), (IH q (tmul eye4 (lspec l qi))). rewrite tmul_1_l. destruct (fkp ls q eye4); cbn [bind]; auto. rewrite tmul_assoc. reflexivity. }
    destruct (l_jt l); auto.
Qed.
Definition strip (r : robot) : robot := Rb (r_links r) (r_limits r) (r_base r) None eye4 (r_mat r) (r_self r) (r_prio r).
Lemma fk_base_tool r q : good r -> snd (fk r q) = (T0 <- snd (fk (strip r) q) ;; Ok (tooled r (tmul (r_tfb r) T0))).
Proof.
  intros G. rewrite fk_snd by auto. rewrite fk_snd by (destruct G; split; auto). cbn [strip r_links r_tfb]. rewrite (fkp_base (r_links r) q (r_tfb r)).
  destruct (fkp (r_links r) q eye4); reflexivity.
Qed.

(** ** explicit link matrices *)
Definition dhx (a alpha d theta : R) : mat4 :=
  M4 (M3 (cos theta) (- sin theta * cos alpha) (sin theta * sin alpha)
         (sin theta) (cos theta * cos alpha) (- cos theta * sin alpha) 0 (sin alpha) (cos alpha))
     (V3 (a * cos theta) (a * sin theta) d) v0 1.
Lemma dhm_dhx a alpha d theta : dhm a alpha d theta = dhx a alpha d theta.
Proof. rewrite <- (write_T_dhm eye4) by (repeat split). reflexivity. Qed.
Lemma cos_mPI2 : cos (- PI / 2) = 0. Proof. replace (- PI / 2) with (- (PI / 2)) by field. rewrite cos_neg. apply cos_PI2. Qed.
Lemma sin_mPI2 : sin (- PI / 2) = -1. Proof. replace (- PI / 2) with (- (PI / 2)) by field. rewrite sin_neg, sin_PI2. reflexivity. Qed.
Lemma dhx_0 a d t : dhx a 0 d t = M4 (rot_z t) (V3 (a * cos t) (a * sin t) d) v0 1.
Proof. unfold dhx, rot_z. rewrite cos_0, sin_0. apply mat4_eq; auto; cbn; apply mat3_eq; cbn; ring. Qed.
Lemma dhx_p a d t : dhx a (PI / 2) d t = M4 (M3 (cos t) 0 (sin t) (sin t) 0 (- cos t) 0 1 0) (V3 (a * cos t) (a * sin t) d) v0 1.
Proof. unfold dhx. rewrite cos_PI2, sin_PI2. apply mat4_eq; auto; cbn; apply mat3_eq; cbn; ring. Qed.
Lemma dhx_m a d t : dhx a (- PI / 2) d t = M4 (M3 (cos t) 0 (- sin t) (sin t) 0 (cos t) 0 (-1) 0) (V3 (a * cos t) (a * sin t) d) v0 1.
Proof. unfold dhx. rewrite cos_mPI2, sin_mPI2. apply mat4_eq; auto; cbn; apply mat3_eq; cbn; ring. Qed.

Lemma tmulb A p B p' : tmul (M4 A p v0 1) (M4 B p' v0 1) = M4 (mmul A B) (vadd (mapply A p') p) v0 1.
Proof. apply tmul_blocks; reflexivity. Qed.
Ltac chain := rewrite !dhm_dhx, ?dhx_0, ?dhx_p, ?dhx_m, ?tmul_1_l, !tmulb.
Ltac trigring := unfold rot_z, rot_y, rot_x; munf; repeat rewrite ?cos_plus, ?sin_plus; apply mat4_eq; [apply mat3_eq|apply vec3_eq| |]; cbn [rot pos brow bww vx vy vz m00 m01 m02 m10 m11 m12 m20 m21 m22]; try reflexivity; try ring.

(** ** the robots *)
(** Siciliano 2.9.1: planar arm *)
Definition planar_form (a1 a2 a3 q1 q2 q3 : R) : mat4 :=
  M4 (rot_z (q1 + q2 + q3))
     (V3 (a1 * cos q1 + a2 * cos (q1 + q2) + a3 * cos (q1 + q2 + q3)) (a1 * sin q1 + a2 * sin (q1 + q2) + a3 * sin (q1 + q2 + q3)) 0) v0 1.
Lemma planar_fk a1 a2 a3 q1 q2 q3 : snd (fk (PlanarArm a1 a2 a3) [q1; q2; q3]) = Ok (planar_form a1 a2 a3 q1 q2 q3).
Proof.
  rewrite fk_snd by (apply robot_init_good; repeat constructor). cbn [PlanarArm robot_init r_links r_tfb fkp lr new_link l_jt bind tooled r_tool]. f_equal.
  unfold lspec, lr, lp, new_link. cbn [l_jt l_dh da dalpha dd dtheta]. chain. unfold planar_form. trigring.
Qed.
(** spherical arm *)
Definition spherical_form (d2 q1 q2 q3 : R) : mat4 :=
  M4 (M3 (cos q1 * cos q2) (- sin q1) (cos q1 * sin q2) (sin q1 * cos q2) (cos q1) (sin q1 * sin q2) (- sin q2) 0 (cos q2))
     (V3 (cos q1 * sin q2 * q3 - sin q1 * d2) (sin q1 * sin q2 * q3 + cos q1 * d2) (cos q2 * q3)) v0 1.
Lemma spherical_fk d2 q1 q2 q3 : snd (fk (SphericalArm d2) [q1; q2; q3]) = Ok (spherical_form d2 q1 q2 q3).
Proof.
  rewrite fk_snd by (apply robot_init_good; repeat constructor). cbn [SphericalArm robot_init r_links r_tfb fkp lr lp new_link l_jt bind tooled r_tool]. f_equal.
  unfold lspec, lr, lp, new_link. cbn [l_jt l_dh da dalpha dd dtheta]. chain. unfold spherical_form, rot_z. rewrite cos_0, sin_0. trigring.
Qed.
(** anthropomorphic arm *)
Definition anthropomorphic_form (a2 a3 q1 q2 q3 : R) : mat4 :=
  M4 (M3 (cos q1 * cos (q2 + q3)) (- cos q1 * sin (q2 + q3)) (sin q1)
         (sin q1 * cos (q2 + q3)) (- sin q1 * sin (q2 + q3)) (- cos q1)
         (sin (q2 + q3)) (cos (q2 + q3)) 0)
     (V3 (cos q1 * (a2 * cos q2 + a3 * cos (q2 + q3))) (sin q1 * (a2 * cos q2 + a3 * cos (q2 + q3))) (a2 * sin q2 + a3 * sin (q2 + q3))) v0 1.
Lemma anthropomorphic_fk a2 a3 q1 q2 q3 : snd (fk (AnthropomorphicArm a2 a3) [q1; q2; q3]) = Ok (anthropomorphic_form a2 a3 q1 q2 q3).
Proof.
  rewrite fk_snd by (apply robot_init_good; repeat constructor). cbn [AnthropomorphicArm robot_init r_links r_tfb fkp lr lp new_link l_jt bind tooled r_tool]. f_equal.
  unfold lspec, lr, lp, new_link. cbn [l_jt l_dh da dalpha dd dtheta]. chain. unfold anthropomorphic_form. trigring.
Qed.
(** spherical wrist: ZYZ Euler angles, then d3 along the approach axis *)
Definition zyz (t1 t2 t3 : R) : mat3 := mmul (mmul (rot_z t1) (rot_y t2)) (rot_z t3).
Definition wrist_form (d3 q1 q2 q3 : R) : mat4 := M4 (zyz q1 q2 q3) (vscale d3 (col2 (zyz q1 q2 q3))) v0 1.
Lemma wrist_fk d3 q1 q2 q3 : snd (fk (SphericalWrist d3) [q1; q2; q3]) = Ok (wrist_form d3 q1 q2 q3).
Proof.
  rewrite fk_snd by (apply robot_init_good; repeat constructor). cbn [SphericalWrist robot_init r_links r_tfb fkp lr lp new_link l_jt bind tooled r_tool]. f_equal.
  unfold lspec, lr, lp, new_link. cbn [l_jt l_dh da dalpha dd dtheta]. chain. unfold wrist_form, zyz. trigring.
Qed.
(** Arm2 *)
Definition arm2_rot (q1 q23 : R) : mat3 :=
  M3 (cos q1 * cos q23) (sin q1) (cos q1 * sin q23) (sin q1 * cos q23) (- cos q1) (sin q1 * sin q23) (sin q23) 0 (- cos q23).
Definition arm2_form (a1 a2 a3 q1 q2 q3 : R) : mat4 :=
  M4 (arm2_rot q1 (q2 + q3))
     (V3 (cos q1 * (a1 + a2 * cos q2 + a3 * cos (q2 + q3))) (sin q1 * (a1 + a2 * cos q2 + a3 * cos (q2 + q3))) (a2 * sin q2 + a3 * sin (q2 + q3))) v0 1.
Lemma arm2_fk a1 a2 a3 q1 q2 q3 : snd (fk (Arm2 a1 a2 a3) [q1; q2; q3]) = Ok (arm2_form a1 a2 a3 q1 q2 q3).
Proof.
  rewrite fk_snd by (apply robot_init_good; repeat constructor). cbn [Arm2 robot_init r_links r_tfb fkp lr lp new_link l_jt bind tooled r_tool]. f_equal.
  unfold lspec, lr, lp, new_link. cbn [l_jt l_dh da dalpha dd dtheta]. chain. unfold arm2_form, arm2_rot. trigring.
Qed.
(** Kuka: wrist centre, then the wrist *)
Definition kuka_centre (a1 a2 d4 q1 q2 q3 : R) : vec3 :=
  V3 (cos q1 * (a1 + a2 * cos q2 + d4 * sin (q2 + q3))) (sin q1 * (a1 + a2 * cos q2 + d4 * sin (q2 + q3))) (a2 * sin q2 - d4 * cos (q2 + q3)).
Definition kuka_form (a1 a2 d4 d6 q1 q2 q3 q4 q5 q6 : R) : mat4 :=
  let A := mmul (arm2_rot q1 (q2 + q3)) (zyz q4 q5 q6) in
  M4 A (vadd (kuka_centre a1 a2 d4 q1 q2 q3) (vscale d6 (col2 A))) v0 1.
Lemma kuka_arm a1 a2 q1 q2 q3 : tmul (tmul (dhm a1 (PI / 2) 0 q1) (dhm a2 0 0 q2)) (dhm 0 (PI / 2) 0 q3) =
  M4 (arm2_rot q1 (q2 + q3)) (V3 (cos q1 * (a1 + a2 * cos q2)) (sin q1 * (a1 + a2 * cos q2)) (a2 * sin q2)) v0 1.
Proof. chain. unfold arm2_rot. trigring. Qed.
Lemma kuka_wrist d4 d6 q4 q5 q6 : tmul (tmul (dhm 0 (- PI / 2) d4 q4) (dhm 0 (PI / 2) 0 q5)) (dhm 0 0 d6 q6) =
  M4 (zyz q4 q5 q6) (vadd (V3 0 0 d4) (vscale d6 (col2 (zyz q4 q5 q6)))) v0 1.
Proof. chain. unfold zyz. trigring. Qed.
Lemma kuka_links_form a1 a2 d4 d6 q1 q2 q3 q4 q5 q6 :
  tmul (tmul (tmul (tmul (tmul (dhm a1 (PI / 2) 0 q1) (dhm a2 0 0 q2)) (dhm 0 (PI / 2) 0 q3)) (dhm 0 (- PI / 2) d4 q4)) (dhm 0 (PI / 2) 0 q5)) (dhm 0 0 d6 q6) =
  kuka_form a1 a2 d4 d6 q1 q2 q3 q4 q5 q6.
Proof.
  rewrite (tmul_assoc (tmul _ (dhm 0 (- PI / 2) d4 q4))), (tmul_assoc _ (dhm 0 (- PI / 2) d4 q4)), <- (tmul_assoc (dhm 0 (- PI / 2) d4 q4)).
  rewrite kuka_arm, kuka_wrist, tmulb. unfold kuka_form. cbv zeta. apply mat4_eq; auto. cbn [pos].
  rewrite mapply_add, mapply_scale. replace (mapply (arm2_rot q1 (q2 + q3)) (col2 (zyz q4 q5 q6))) with (col2 (mmul (arm2_rot q1 (q2 + q3)) (zyz q4 q5 q6))).
  - generalize (vscale d6 (col2 (mmul (arm2_rot q1 (q2 + q3)) (zyz q4 q5 q6)))). intros v. unfold kuka_centre, arm2_rot. munf. apply vec3_eq; cbn; ring.
  - generalize (arm2_rot q1 (q2 + q3)) (zyz q4 q5 q6). intros. vring.
Qed.
Lemma kuka_fk a1 a2 d4 d6 q1 q2 q3 q4 q5 q6 : snd (fk (Kuka a1 a2 d4 d6) [q1; q2; q3; q4; q5; q6]) = Ok (kuka_form a1 a2 d4 d6 q1 q2 q3 q4 q5 q6).
Proof.
  rewrite fk_snd by (apply robot_init_good; repeat constructor). cbn [Kuka robot_init r_links r_tfb fkp lr lp new_link l_jt bind tooled r_tool]. f_equal.
  unfold lspec, lr, lp, new_link. cbn [l_jt l_dh da dalpha dd dtheta]. rewrite tmul_1_l. apply kuka_links_form.
Qed.
(** KukaOnRail: the rail moves the Kuka along z of the base; its frame is turned by Rx(pi/2) *)
Definition rail_form (q0 : R) : mat4 := M4 (M3 1 0 0 0 0 (-1) 0 1 0) (V3 0 0 q0) v0 1.
Lemma rail_link q0 : dhm 0 (PI / 2) q0 0 = rail_form q0.
Proof. rewrite dhm_dhx, dhx_p, cos_0, sin_0. unfold rail_form. apply mat4_eq; auto; cbn; apply vec3_eq; cbn; ring. Qed.
Lemma kuka_on_rail_fk a1 a2 d4 d6 q0 q1 q2 q3 q4 q5 q6 :
  snd (fk (KukaOnRail a1 a2 d4 d6) [q0; q1; q2; q3; q4; q5; q6]) = Ok (tmul (rail_form q0) (kuka_form a1 a2 d4 d6 q1 q2 q3 q4 q5 q6)).
Proof.
  rewrite fk_snd by (apply robot_init_good; repeat constructor). cbn [KukaOnRail robot_init r_links r_tfb fkp lr lp new_link l_jt bind tooled r_tool]. f_equal.
  unfold lspec, lr, lp, new_link. cbn [l_jt l_dh da dalpha dd dtheta]. rewrite tmul_1_l, <- kuka_links_form, rail_link, !tmul_assoc. reflexivity.
Qed.

(** ** C44 refuted: a prismatic joint *)
(** what the symbolic version computes: joint 3 turns instead of sliding *)
Lemma spherical_casadi d2 q1 q2 q3 : fk_casadi (SphericalArm d2) [q1; q2; q3] =
  Ok (M4 (mmul (rot (spherical_form d2 q1 q2 0)) (rot_z q3)) (V3 (- sin q1 * d2) (cos q1 * d2) 0) v0 1).
Proof.
  unfold fk_casadi. cbn [SphericalArm robot_init r_links r_tfb casadi_loop bind r_tool]. f_equal. rewrite !link_casadi_spec.
  unfold lr, lp, new_link. cbn [l_dh da dalpha dd]. chain. unfold spherical_form. cbn [rot]. trigring.
Qed.
Lemma casadi_prismatic : exists q T T', snd (fk (SphericalArm 1) q) = Ok T /\ fk_casadi (SphericalArm 1) q = Ok T' /\ T <> T'.
Proof.
  exists [0; 0; 1]. rewrite spherical_fk, spherical_casadi. eexists _, _. split; [reflexivity|]. split; [reflexivity|]. intros E. apply (f_equal (fun T => vz (pos T))) in E. revert E.
  cbn [spherical_form pos vz]. rewrite cos_0. lra.
Qed.

(** ** remaining pieces for the property file *)
Lemma band_spec ls i j : r_mat (robot_init ls) i j = true <-> (i + 3 <= j \/ j + 3 <= i)%nat.
Proof. cbn [robot_init r_mat]. unfold band. rewrite orb_true_iff, !Nat.leb_le. tauto. Qed.
Lemma link_dh l qi : clean_link l ->
  snd (link_transform l qi) =
  match l_jt l with
  | JR => Ok (dhm (da (l_dh l)) (dalpha (l_dh l)) (dd (l_dh l)) qi)
  | JP => Ok (dhm (da (l_dh l)) (dalpha (l_dh l)) qi (dtheta (l_dh l)))
  | JOther => Raise UnboundLocalError
  end.
Proof. intros H. rewrite link_transform_snd by auto. unfold lspec. destruct (l_jt l); reflexivity. Qed.
Lemma frames_fk r q : good r -> joints_ok r -> (ndof r <= length q)%nat -> (1 <= ndof r)%nat ->
  exists fs, snd (fk_all_links r q) = Ok fs /\ length fs = ndof r /\
    (forall i, (i < ndof r)%nat -> nth_error fs i = Some (frame r q i)) /\
    (forall T, nth_error fs (ndof r - 1) = Some T -> snd (fk r q) = Ok (tooled r T)).
Proof.
  intros G J L N. exists (map (frame r q) (seq 0 (ndof r))). split; [apply frames_ok; auto|]. split; [rewrite map_length, seq_length; auto|]. split.
  - intros i Hi. apply nth_error_frames. auto.
  - intros T H. apply nth_error_frames in H. destruct H as [_ ->]. rewrite fk_ok by auto. destruct (ndof r) as [|n]; [lia|]. cbn [Nat.sub]. rewrite Nat.sub_0_r. reflexivity.
Qed.
Lemma remove_first_split i : forall l, In i l -> exists l1 l2, l = l1 ++ i :: l2 /\ remove_first i l = l1 ++ l2.
Proof.
  induction l as [|x l IH]; intros H; [destruct H|]. cbn [remove_first]. destruct (Nat.eqb_spec x i) as [->|Hne]; [exists [], l; auto|].
  destruct H as [->|H]; [congruence|]. destruct (IH H) as (l1 & l2 & -> & E). exists (x :: l1), l2. rewrite E. auto.
Qed.
Lemma prio_order prim r q scene : good r ->
  r_prio (fst (robot_collision prim r q scene)) = r_prio r \/
  exists i l1 l2, r_prio r = l1 ++ i :: l2 /\ r_prio (fst (robot_collision prim r q scene)) = i :: l1 ++ l2 /\
    snd (robot_collision prim r q scene) = Ok true.
Proof.
  intros G. unfold robot_collision. destruct (match r_base r with Some _ => _ | None => _ end); [auto|].
  unfold fk_all_links. destruct (frames_loop (r_links r) q (r_tfb r)) as [ls fs]. destruct fs as [tfs| |]; cbn [fst]; auto.
  destruct (prio_loop _ _ _ _ _) as [[i|]| |] eqn:E; cbn [fst snd]; auto. right. apply prio_loop_In in E. cbn [r_prio set_links] in *.
  destruct (remove_first_split i _ E) as (l1 & l2 & E1 & E2). exists i, l1, l2. cbn [set_prio r_prio]. rewrite E2. auto.
Qed.
