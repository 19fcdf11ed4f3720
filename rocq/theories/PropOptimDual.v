(** * Property theorems C115, C116: what the constraints of optimization.py say.

    [sized s]: the sides of s are not negative.  [one_box l]: the link has exactly
    one, rigidly placed box.  [clear_of r scene fs], [clear_pose]: all boxes of the
    links are at least 1e-6 from all boxes of the scene.  [at_point r p qk]: forward
    kinematics of qk has position p.  [feasible]: all constraints given to the
    solver hold, with multipliers lam and mu. *)
From Coq Require Import Reals Lra List Bool Arith Lia.
From Verif Require Import PyBase Mat Util Geometry GeometryProofs Robot RobotProofs Optim OptimProofs OptimDual.
Import ListNotations.
Local Open Scope R_scope.

(** C115: two boxes have multipliers exactly when they are eps apart. *)
Theorem C115_boxes_apart : forall s T s' T' eps, rigid T -> rigid T' -> sized s -> sized s' -> 0 < eps -> (forall x y, in_box s T x -> in_box s' T' y -> eps ^ 2 <= norm2 (vsub x y)) ->
  exists lam mu, Forall (fun c => c) (create_collision_constraints lam mu (pA (get_polyhedron s T)) (pA (get_polyhedron s' T')) (pb (get_polyhedron s T)) (pb (get_polyhedron s' T')) eps).
Proof. exact dual_exists. Qed.
Print Assumptions C115_boxes_apart.
(** C115: one pose. *)
Theorem C115_pose : forall r scene q, rigid (r_tfb r) -> Forall one_box (r_links r) -> Forall (fun l => sized_coll (l_geom l)) (r_links r) -> proper_scene scene -> sized_coll scene ->
  ((exists lamk muk cs, create_cc_for_joint_pose r (flat_map (fun l => get_polyhedrons (l_geom l)) (r_links r)) (get_polyhedrons scene) q lamk muk = Ok cs /\ Forall (fun c => c) cs) <->
   clear_pose r scene q).
Proof. exact pose_exact. Qed.
Print Assumptions C115_pose.
(** C115: the whole problem. *)
Theorem C115_problem : forall xyz r scene q, good r -> revolute r -> rigid (r_tfb r) -> Forall one_box (r_links r) -> Forall (fun l => sized_coll (l_geom l)) (r_links r) -> proper_scene scene -> sized_coll scene ->
  (1 <= ndof r)%nat ->
  ((exists lam mu, feasible xyz r (Some scene) q lam mu) <->
   Forall (fun row => length row = 6%nat) q /\ Forall2 (at_point r) xyz q /\ Forall (clear_pose r scene) q).
Proof. exact feasible_exact. Qed.
Print Assumptions C115_problem.
Example C115_example : Forall one_box (r_links (rob1 (Coll [cube] [eye4]))) /\ Forall (fun l => sized_coll (l_geom l)) (r_links (rob1 (Coll [cube] [eye4]))) /\ proper_scene wall /\ sized_coll wall /\
  exists lam mu, feasible [[0; 0; 0]] (rob1 (Coll [cube] [eye4])) (Some wall) [[0; 0; 0; 0; 0; 0]] lam mu.
Proof.
  split; [constructor; [exists cube, eye4; split; auto; apply rigid_eye|constructor]|]. split; [repeat constructor; cbn; lra|]. split; [split; auto; constructor; [apply at_x_rigid|constructor]|].
  split; [repeat constructor; cbn; lra|]. exists lam1, mu1. apply problem1. eexists _, _. reflexivity.
Qed.

(** C116: for a feasible motion is_in_collision can only be true through base, tool or self collision. *)
Theorem C116_links_partial : forall prim xyz r scene q lam mu, good r -> revolute r -> exact_prim prim -> rigid (r_tfb r) -> Forall one_box (r_links r) -> proper_scene scene -> (1 <= ndof r <= 6)%nat ->
  feasible xyz r (Some scene) q lam mu -> Forall (fun qk => exists b, snd (robot_collision prim r qk scene) = Ok b /\
    (b = true <-> (exists ba, r_base r = Some ba /\ is_in_collision prim ba scene (Some (r_tfb r)) None = true) \/
      (exists tool tip, r_tool r = Some (tool, tip) /\ is_in_collision prim tool scene (Some (frame r qk (ndof r - 1))) None = true) \/
      (r_self r = true /\ self_spec prim r qk))) q.
Proof. exact feasible_collision. Qed.
Print Assumptions C116_links_partial.
(** C116: refuted: a feasible motion with the tool inside the wall. *)
Theorem C116_tool_refuted : forall prim, exact_prim prim -> feasible [[0; 0; 0]] rob_tool (Some wall) [[0; 0; 0; 0; 0; 0]] lam1 mu1 /\ snd (robot_collision prim rob_tool [0; 0; 0; 0; 0; 0] wall) = Ok true.
Proof. exact tool_ignored. Qed.
Print Assumptions C116_tool_refuted.
Example C116_example : exact_prim box_test. Proof. exact box_test_exact. Qed.

(** C128: get_optimal_path returns a path exactly when the solver reports success. *)
Theorem C128_reported : forall xyz r scene q cs, all_constraints xyz r scene (repeat (repeat 0 6) (length xyz)) (fun _ _ _ => []) (fun _ _ _ => []) = Ok cs ->
  get_optimal_path xyz r scene (Some (true, q)) = Ok (OptOk q) /\ get_optimal_path xyz r scene (Some (false, q)) = Ok OptFail /\ get_optimal_path xyz r scene None = Raise GenericException.
Proof. exact optimal_reported. Qed.
Print Assumptions C128_reported.
(** C128: with a sound solver the returned motion passes through the points and keeps the links clear ... *)
Theorem C128_returned : forall xyz r scene solver q, good r -> revolute r -> rigid (r_tfb r) -> Forall one_box (r_links r) -> Forall (fun l => sized_coll (l_geom l)) (r_links r) -> proper_scene scene -> sized_coll scene ->
  (1 <= ndof r)%nat -> solver_sound xyz r (Some scene) solver -> get_optimal_path xyz r (Some scene) solver = Ok (OptOk q) ->
  Forall (fun row => length row = 6%nat) q /\ Forall2 (at_point r) xyz q /\ Forall (clear_pose r scene) q.
Proof. exact optimal_returned. Qed.
Print Assumptions C128_returned.
Theorem C128_no_scene : forall xyz r solver q, good r -> revolute r -> solver_sound xyz r None solver -> get_optimal_path xyz r None solver = Ok (OptOk q) ->
  Forall (fun row => length row = 6%nat) q /\ Forall2 (at_point r) xyz q.
Proof. exact optimal_no_scene. Qed.
Print Assumptions C128_no_scene.
(** C128: ... and if the solver finds the least feasible value, no such motion is shorter. *)
Theorem C128_least : forall xyz r scene solver q q', good r -> revolute r -> rigid (r_tfb r) -> Forall one_box (r_links r) -> Forall (fun l => sized_coll (l_geom l)) (r_links r) -> proper_scene scene -> sized_coll scene ->
  (1 <= ndof r)%nat -> solver_best xyz r (Some scene) solver -> get_optimal_path xyz r (Some scene) solver = Ok (OptOk q) ->
  Forall (fun row => length row = 6%nat) q' -> Forall2 (at_point r) xyz q' -> Forall (clear_pose r scene) q' -> objective q <= objective q'.
Proof. exact optimal_least. Qed.
Print Assumptions C128_least.
Example C128_example : solver_sound [[0; 0; 0]] (rob1 (Coll [cube] [eye4])) (Some wall) (Some (true, [[0; 0; 0; 0; 0; 0]])) /\
  solver_best [[0; 0; 0]] (rob1 (Coll [cube] [eye4])) (Some wall) (Some (true, [[0; 0; 0; 0; 0; 0]])).
Proof.
  split.
  - intros q E. injection E as <-. exists lam1, mu1. apply problem1. eexists _, _. reflexivity.
  - intros q q' lam mu E _. injection E as <-. replace (objective [[0; 0; 0; 0; 0; 0]]) with 0 by reflexivity. apply objective_nonneg.
Qed.
