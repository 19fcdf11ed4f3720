(** * Property theorem C139: the collision check in floating point.

    [frobot_collision A prim r q scene]: Robot.is_in_collision with the arithmetic A
    (FloatFk.v).  [test_within prim tol]: the box test reports only boxes at most tol
    apart, and boxes it does not report have no common point tol below both surfaces;
    asked of matrices with an error of at most 1/100.  [clear r scene q]: at the exact
    positions the robot has no point in common with the scene, nor do the parts of it
    that are compared.  [clear_by d]: these are more than d apart.  [shrink_robot d],
    [shrink_coll d]: every face of every box moved inwards by d.  [geom_near],
    [coll_near]: the same boxes with rounded transforms.  [robot_size D L]: the sides of
    a box add up to at most 2D and it lies within L of its frame.  [box_rot],
    [box_pos]: errors of the frame of a box, linear in those of C130. *)
From Coq Require Import Reals Lra Lia List Arith.
From Verif Require Import PyBase Mat Geometry GeometryProofs Robot RobotProofs Resources PipelineProofs Motion FloatFk FloatFkProofs FloatColl FloatCollProofs.
Import ListNotations.
Local Open Scope R_scope.

(** C139: any robot, any scene, any arithmetic. *)
Theorem C139_check : forall A u eta g h, arith_ok A u eta g h -> 0 <= u <= 1 / 1000 -> 0 <= eta -> 0 <= g -> 0 <= h -> 12 * u + eta <= 1 / 12 ->
  forall prim r r' q q' scene scene' P D L tol d, test_within prim tol -> 0 <= tol ->
  good r -> good r' -> joints_ok r -> (r_tool r <> None -> (1 <= ndof r)%nat) -> solid r -> rigid_coll scene -> sane P (r_tfb r) ->
  robot_near u eta r r' -> geom_near u eta r r' -> joints_near u eta (r_links r) q q' -> coll_near u eta scene scene' ->
  0 <= D -> 0 <= L -> robot_size D L r -> coll_size D L scene ->
  let E := rot_bound u eta g h (ndof r) in let S := span (r_links r) q in let F := pos_bound u eta g h (ndof r) S P in
  let e := box_rot u eta g h E in let f := box_pos u eta g h E F (P + 3 / 2 * S) L in
  e <= 1 / 100 -> F <= 1 -> 4 * (e * D + f) + tol <= d ->
  exists b, snd (frobot_collision A prim r' q' scene') = Ok b /\
    (b = false -> clear (shrink_robot d r) (shrink_coll d scene) q) /\ (clear_by d r scene q -> b = false).
Proof. exact check_within. Qed.
Print Assumptions C139_check.
(** C139: an arm of at most seven joints and ten metres in double precision. *)
Theorem C139_double : forall prim r r' q q' scene scene' tol, test_within prim tol -> 0 <= tol ->
  good r -> good r' -> joints_ok r -> (r_tool r <> None -> (1 <= ndof r)%nat) -> (ndof r <= 7)%nat -> solid r -> rigid_coll scene ->
  robot_near u64 eta64 r r' -> geom_near u64 eta64 r r' -> joints_near u64 eta64 (r_links r) q q' -> coll_near u64 eta64 scene scene' ->
  len (pos (r_tfb r)) <= 10 -> span (r_links r) q <= 10 -> robot_size 10 10 r -> coll_size 10 10 scene ->
  exists b, snd (frobot_collision double prim r' q' scene') = Ok b /\
    (b = false -> clear (shrink_robot (3e-11 + tol) r) (shrink_coll (3e-11 + tol) scene) q) /\ (clear_by (3e-11 + tol) r scene q -> b = false).
Proof. exact check_double. Qed.
Print Assumptions C139_double.
(** C139: the Kuka of robots.py, every number rounded to a double. *)
Theorem C139_kuka : forall prim q scene tol, let r := KukaG 0.18 0.6 0.62 0.115 in test_within prim tol -> 0 <= tol ->
  length q = 6%nat -> Forall (fun x => Rabs x <= 3.9) q -> rigid_coll scene -> coll_size 10 10 scene ->
  exists b, snd (frobot_collision double prim (round_boxes (round_robot r)) (map rnd64 q) (round_coll scene)) = Ok b /\
    (b = false -> clear (shrink_robot (3e-11 + tol) r) (shrink_coll (3e-11 + tol) scene) q) /\ (clear_by (3e-11 + tol) r scene q -> b = false).
Proof. exact kuka_check. Qed.
Print Assumptions C139_kuka.
(** such a test exists; its tolerance is 0 *)
Example C139_test : test_within box_test 0.
Proof. exact box_test_within. Qed.
(** the Kuka in an empty scene and beside one box *)
Example C139_case : let q := [1; 2; 3; -1; -2; -3] in let scene := Coll [Shape 1 1 1] [M4 mid (V3 5 0 0) v0 1] in
  exists b, snd (frobot_collision double box_test (round_boxes (round_robot (KukaG 0.18 0.6 0.62 0.115))) (map rnd64 q) (round_coll scene)) = Ok b.
Proof.
  destruct (C139_kuka box_test [1; 2; 3; -1; -2; -3] (Coll [Shape 1 1 1] [M4 mid (V3 5 0 0) v0 1]) 0 C139_test) as (b & E & _); [lra|reflexivity| | |  |exists b; exact E].
  - repeat (apply Forall_cons; [apply Rabs_le; lra|]). apply Forall_nil.
  - apply Forall_cons; [|apply Forall_nil]. constructor; cbn; auto using rotation_mid.
  - split; cbn [c_s c_tf]; (apply Forall_cons; [|apply Forall_nil]); [cbn; lra|]. cbn [pos]. rewrite len_x, Rabs_right; lra.
Qed.
