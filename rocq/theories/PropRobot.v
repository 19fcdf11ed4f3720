(** * Property theorems C37-C45: robot.py and forward kinematics.

    [good r]: the entries of the cached link matrices that are never written
    have their initial values and collision_priority is a permutation of the
    links; every robot from robot_init is good.  [run_ops prim r os]: r after
    any sequence of fk, fk_all_links, self-collision, collision and link
    transform calls (including failing ones).  [frame r q i]: the base frame
    times the Denavit-Hartenberg matrices of links 0..i. *)
From Coq Require Import Reals Lra List Bool Arith Lia Permutation.
From Verif Require Import PyBase Mat Util UtilProofs Geometry GeometryProofs Robot RobotProofs RobotForms.
Import ListNotations.
Local Open Scope R_scope.

(** C37 *)
Theorem C37_collision_history : forall prim r os, good r -> forall q scene,
  snd (robot_collision prim (run_ops prim r os) q scene) = snd (robot_collision prim r q scene).
Proof. exact (fun prim r os G => proj1 (history prim r os G)). Qed.
Print Assumptions C37_collision_history.
Theorem C37_self_collision_history : forall prim r os, good r -> forall q,
  snd (is_in_self_collision prim (run_ops prim r os) q) = snd (is_in_self_collision prim r q).
Proof. exact (fun prim r os G => proj1 (proj2 (proj2 (proj2 (history prim r os G))))). Qed.
Print Assumptions C37_self_collision_history.
(** every new robot is good *)
Example C37_example : forall ls, Forall clean_link ls -> good (robot_init ls).
Proof. exact robot_init_good. Qed.
Example C37_example_new_link : forall dh jt g, clean_link (new_link dh jt g).
Proof. exact new_link_clean. Qed.

(** C38 *)
Theorem C38_collision_iff : forall prim r q scene, good r -> joints_ok r -> (ndof r <= length q)%nat -> (r_tool r <> None -> (1 <= ndof r)%nat) ->
  exists b, snd (robot_collision prim r q scene) = Ok b /\
  (b = true <->
    (exists g, r_base r = Some g /\ is_in_collision prim g scene (Some (r_tfb r)) None = true) \/
    (exists i l, nth_error (r_links r) i = Some l /\ is_in_collision prim (l_geom l) scene (Some (frame r q i)) None = true) \/
    (exists tool tip, r_tool r = Some (tool, tip) /\ is_in_collision prim tool scene (Some (frame r q (ndof r - 1))) None = true) \/
    (r_self r = true /\ self_spec prim r q)).
Proof. exact collision_correct. Qed.
Print Assumptions C38_collision_iff.
(** C38: the self-collision part, spelled out: pairs of the matrix, and tool against all links but the last. *)
Theorem C38_self_collision_iff : forall prim r q, good r -> joints_ok r -> (ndof r <= length q)%nat -> (r_tool r <> None -> (1 <= ndof r)%nat) ->
  exists b, snd (is_in_self_collision prim r q) = Ok b /\
  (b = true <->
    (exists i j li lj, nth_error (r_links r) i = Some li /\ nth_error (r_links r) j = Some lj /\ r_mat r i j = true /\
       is_in_collision prim (l_geom li) (l_geom lj) (Some (frame r q i)) (Some (frame r q j)) = true) \/
    (exists tool tip i l, r_tool r = Some (tool, tip) /\ (i + 1 < ndof r)%nat /\ nth_error (r_links r) i = Some l /\
       is_in_collision prim (l_geom l) tool (Some (frame r q i)) (Some (frame r q (ndof r - 1))) = true)).
Proof. exact is_in_self_correct. Qed.
Print Assumptions C38_self_collision_iff.
(** C38: the default matrix selects the pairs at least three apart. *)
Theorem C38_default_pairs : forall ls i j, r_mat (robot_init ls) i j = true <-> (i + 3 <= j \/ j + 3 <= i)%nat.
Proof. exact band_spec. Qed.
Print Assumptions C38_default_pairs.
(** C38: the excluded case, a tool on a robot without links, raises. *)
Theorem C38_tool_without_links : forall prim r q scene, good r -> r_tool r <> None -> ndof r = 0%nat ->
  snd (robot_collision prim r q scene) =
  if match r_base r with Some b => is_in_collision prim b scene (Some (r_tfb r)) None | None => false end then Ok true else Raise IndexError.
Proof. exact collision_tool_no_links. Qed.
Print Assumptions C38_tool_without_links.
Example C38_example : let r := robot_init [lr 1 0 0 0; lp 0 0 0 0] in good r /\ joints_ok r /\ (ndof r <= length [0; 0])%nat.
Proof. cbv zeta. split; [apply robot_init_good; repeat constructor|]. split; [repeat constructor; discriminate|]. cbn. lia. Qed.

(** C39 *)
Theorem C39_priority_permutation : forall prim r os, good r -> Permutation (r_prio (run_ops prim r os)) (seq 0 (ndof r)).
Proof. exact (fun prim r os G => proj2 (proj2 (proj2 (proj2 (history prim r os G))))). Qed.
Print Assumptions C39_priority_permutation.
(** C39: the link that was hit is in front afterwards, the others keep their order. *)
Theorem C39_priority_order : forall prim r q scene, good r ->
  r_prio (fst (robot_collision prim r q scene)) = r_prio r \/
  exists i l1 l2, r_prio r = l1 ++ i :: l2 /\ r_prio (fst (robot_collision prim r q scene)) = i :: l1 ++ l2 /\
    snd (robot_collision prim r q scene) = Ok true.
Proof. exact prio_order. Qed.
Print Assumptions C39_priority_order.
Example C39_example : good (robot_init [lr 1 0 0 0; lr 1 0 0 0; lr 1 0 0 0; lr 1 0 0 0]).
Proof. apply robot_init_good. repeat constructor. Qed.

(** C40 *)
Theorem C40_fk_history : forall prim r os, good r -> forall q, snd (fk (run_ops prim r os) q) = snd (fk r q).
Proof. exact (fun prim r os G => proj1 (proj2 (history prim r os G))). Qed.
Print Assumptions C40_fk_history.
Theorem C40_fk_all_links_history : forall prim r os, good r -> forall q, snd (fk_all_links (run_ops prim r os) q) = snd (fk_all_links r q).
Proof. exact (fun prim r os G => proj1 (proj2 (proj2 (history prim r os G)))). Qed.
Print Assumptions C40_fk_all_links_history.
Example C40_example : good (SphericalArm 1).
Proof. apply robot_init_good. repeat constructor. Qed.

(** C41 *)
Theorem C41_fk_rigid : forall r q T, good r -> rigid (r_tfb r) -> rigid_tool r -> snd (fk r q) = Ok T -> rigid T.
Proof. exact fk_rigid. Qed.
Print Assumptions C41_fk_rigid.
(** C41: fk returns whenever the joint types are known and q is long enough ... *)
Theorem C41_fk_returns : forall r q, good r -> joints_ok r -> (ndof r <= length q)%nat ->
  snd (fk r q) = Ok (tooled r (match ndof r with O => r_tfb r | S n => frame r q n end)).
Proof. exact fk_ok. Qed.
Print Assumptions C41_fk_returns.
(** C41: ... and raises for no other reason. *)
Theorem C41_fk_raises : forall r q e, good r -> snd (fk r q) = Raise e ->
  (e = IndexError /\ (length q < ndof r)%nat) \/ (e = UnboundLocalError /\ ~ joints_ok r).
Proof. exact fk_raises. Qed.
Print Assumptions C41_fk_raises.
Example C41_example : let r := Kuka 1 2 3 4 in good r /\ rigid (r_tfb r) /\ rigid_tool r /\ joints_ok r.
Proof.
  cbv zeta. split; [apply robot_init_good; repeat constructor|]. split; [exact rigid_eye|]. split; [exact I|]. repeat constructor; discriminate.
Qed.

(** C42: Rz(theta) Tz(d) Tx(a) Rx(alpha), for every state of the cache that calls can produce. *)
Theorem C42_dh_convention : forall l qi, clean_link l ->
  snd (link_transform l qi) =
  match l_jt l with
  | JR => Ok (tmul (tmul (tmul (pose_z qi 0 0 0) (translation 0 0 (dd (l_dh l)))) (translation (da (l_dh l)) 0 0)) (pose_x (dalpha (l_dh l)) 0 0 0))
  | JP => Ok (tmul (tmul (tmul (pose_z (dtheta (l_dh l)) 0 0 0) (translation 0 0 qi)) (translation (da (l_dh l)) 0 0)) (pose_x (dalpha (l_dh l)) 0 0 0))
  | JOther => Raise UnboundLocalError
  end.
Proof. exact link_dh. Qed.
Print Assumptions C42_dh_convention.
Example C42_example : clean_link (lr 1 2 3 4) /\ clean_link (lp 1 2 3 4).
Proof. repeat constructor. Qed.

(** C43 *)
Theorem C43_frames : forall r q, good r -> joints_ok r -> (ndof r <= length q)%nat -> (1 <= ndof r)%nat ->
  exists fs, snd (fk_all_links r q) = Ok fs /\ length fs = ndof r /\
    (forall i, (i < ndof r)%nat -> nth_error fs i = Some (fold_left (fun T p => tmul T (lspec (fst p) (snd p))) (firstn (S i) (combine (r_links r) q)) (r_tfb r))) /\
    (forall T, nth_error fs (ndof r - 1) = Some T -> snd (fk r q) = Ok (match r_tool r with Some (_, tip) => tmul T tip | None => T end)).
Proof. exact frames_fk. Qed.
Print Assumptions C43_frames.
Example C43_example : let r := PlanarArm 1 2 3 in good r /\ joints_ok r /\ (ndof r <= length [0; 1; 2])%nat /\ (1 <= ndof r)%nat.
Proof. cbv zeta. split; [apply robot_init_good; repeat constructor|]. split; [repeat constructor; discriminate|]. cbn. lia. Qed.

(** C44: refuted: with a prismatic joint the two differ ... *)
Theorem C44_casadi_refuted : exists q T T', snd (fk (SphericalArm 1) q) = Ok T /\ fk_casadi (SphericalArm 1) q = Ok T' /\ T <> T'.
Proof. exact casadi_prismatic. Qed.
Print Assumptions C44_casadi_refuted.
(** C44: ... it holds for robots with revolute joints only. *)
Theorem C44_casadi_revolute_partial : forall r q, good r -> revolute r ->
  fk_casadi r q = snd (fk r q) /\ fk_all_links_casadi r q = snd (fk_all_links r q).
Proof. exact (fun r q G H => conj (fk_casadi_agree r q G H) (frames_casadi_agree r q G H)). Qed.
Print Assumptions C44_casadi_revolute_partial.
Example C44_example : good (Kuka 1 2 3 4) /\ revolute (Kuka 1 2 3 4).
Proof. split; [apply robot_init_good; repeat constructor|repeat constructor]. Qed.

(** C45 *)
Theorem C45_planar : forall a1 a2 a3 q1 q2 q3, snd (fk (PlanarArm a1 a2 a3) [q1; q2; q3]) = Ok
  (M4 (rot_z (q1 + q2 + q3))
     (V3 (a1 * cos q1 + a2 * cos (q1 + q2) + a3 * cos (q1 + q2 + q3)) (a1 * sin q1 + a2 * sin (q1 + q2) + a3 * sin (q1 + q2 + q3)) 0) v0 1).
Proof. exact planar_fk. Qed.
Print Assumptions C45_planar.
Theorem C45_spherical : forall d2 q1 q2 q3, snd (fk (SphericalArm d2) [q1; q2; q3]) = Ok
  (M4 (M3 (cos q1 * cos q2) (- sin q1) (cos q1 * sin q2) (sin q1 * cos q2) (cos q1) (sin q1 * sin q2) (- sin q2) 0 (cos q2))
     (V3 (cos q1 * sin q2 * q3 - sin q1 * d2) (sin q1 * sin q2 * q3 + cos q1 * d2) (cos q2 * q3)) v0 1).
Proof. exact spherical_fk. Qed.
Print Assumptions C45_spherical.
Theorem C45_wrist : forall d3 q1 q2 q3, snd (fk (SphericalWrist d3) [q1; q2; q3]) = Ok (M4 (zyz q1 q2 q3) (vscale d3 (col2 (zyz q1 q2 q3))) v0 1).
Proof. exact wrist_fk. Qed.
Print Assumptions C45_wrist.
Theorem C45_anthropomorphic : forall a2 a3 q1 q2 q3, snd (fk (AnthropomorphicArm a2 a3) [q1; q2; q3]) = Ok
  (M4 (M3 (cos q1 * cos (q2 + q3)) (- cos q1 * sin (q2 + q3)) (sin q1)
         (sin q1 * cos (q2 + q3)) (- sin q1 * sin (q2 + q3)) (- cos q1)
         (sin (q2 + q3)) (cos (q2 + q3)) 0)
     (V3 (cos q1 * (a2 * cos q2 + a3 * cos (q2 + q3))) (sin q1 * (a2 * cos q2 + a3 * cos (q2 + q3))) (a2 * sin q2 + a3 * sin (q2 + q3))) v0 1).
Proof. exact anthropomorphic_fk. Qed.
Print Assumptions C45_anthropomorphic.
Theorem C45_arm2 : forall a1 a2 a3 q1 q2 q3, snd (fk (Arm2 a1 a2 a3) [q1; q2; q3]) = Ok
  (M4 (arm2_rot q1 (q2 + q3))
     (V3 (cos q1 * (a1 + a2 * cos q2 + a3 * cos (q2 + q3))) (sin q1 * (a1 + a2 * cos q2 + a3 * cos (q2 + q3))) (a2 * sin q2 + a3 * sin (q2 + q3))) v0 1).
Proof. exact arm2_fk. Qed.
Print Assumptions C45_arm2.
Theorem C45_kuka : forall a1 a2 d4 d6 q1 q2 q3 q4 q5 q6, snd (fk (Kuka a1 a2 d4 d6) [q1; q2; q3; q4; q5; q6]) = Ok (
  let A := mmul (arm2_rot q1 (q2 + q3)) (zyz q4 q5 q6) in
  M4 A (vadd (V3 (cos q1 * (a1 + a2 * cos q2 + d4 * sin (q2 + q3))) (sin q1 * (a1 + a2 * cos q2 + d4 * sin (q2 + q3))) (a2 * sin q2 - d4 * cos (q2 + q3)))
             (vscale d6 (col2 A))) v0 1).
Proof. exact kuka_fk. Qed.
Print Assumptions C45_kuka.
Theorem C45_kuka_on_rail : forall a1 a2 d4 d6 q0 q1 q2 q3 q4 q5 q6,
  snd (fk (KukaOnRail a1 a2 d4 d6) [q0; q1; q2; q3; q4; q5; q6]) =
  Ok (tmul (M4 (M3 1 0 0 0 0 (-1) 0 1 0) (V3 0 0 q0) v0 1) (kuka_form a1 a2 d4 d6 q1 q2 q3 q4 q5 q6)).
Proof. exact kuka_on_rail_fk. Qed.
Print Assumptions C45_kuka_on_rail.
(** C45: another base frame or a tool multiplies from the left or right. *)
Theorem C45_base_tool : forall r q, good r -> snd (fk r q) =
  (T0 <- snd (fk (strip r) q) ;; Ok (match r_tool r with Some (_, tip) => tmul (tmul (r_tfb r) T0) tip | None => tmul (r_tfb r) T0 end)).
Proof. exact fk_base_tool. Qed.
Print Assumptions C45_base_tool.
