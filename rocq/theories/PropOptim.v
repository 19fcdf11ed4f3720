(** * Property theorems C76-C78, C93 and C94: optimization.py.

    [satisfies (Poly A b) x]: A x <= b row by row.  [one_box l]: link l has one
    box with a rigid transform.  [clear_of r scene fs]: with the links at the
    frames fs every point of a link box is at least eps0 = 1e-6 from every
    point of a scene box. *)
From Coq Require Import Reals Lra List Bool Arith.
From Verif Require Import PyBase Mat Util UtilProofs Geometry GeometryProofs Robot RobotProofs RobotForms Optim OptimProofs.
Import ListNotations.
Local Open Scope R_scope.

(** C76 *)
Theorem C76_separation : forall lam mu Ar Ao br bo eps x y, 0 <= eps -> Forall (fun c => c) (create_collision_constraints lam mu Ar Ao br bo eps) ->
  satisfies (Poly Ar br) x -> satisfies (Poly Ao bo) y -> eps ^ 2 <= norm2 (vsub x y).
Proof. exact certify. Qed.
Print Assumptions C76_separation.
Theorem C76_disjoint : forall lam mu Ar Ao br bo eps, 0 < eps -> Forall (fun c => c) (create_collision_constraints lam mu Ar Ao br bo eps) ->
  ~ exists x, satisfies (Poly Ar br) x /\ satisfies (Poly Ao bo) x.
Proof. exact certify_disjoint. Qed.
Print Assumptions C76_disjoint.
Example C76_example : Forall (fun c => c) (create_collision_constraints [1] [1] [V3 1 0 0] [V3 (-1) 0 0] [0] [-1] 1).
Proof.
  unfold create_collision_constraints, ldot, wsum. cbn [combine map fold_right fst snd]. repeat apply Forall_cons; try apply Forall_nil; munf; try lra. f_equal; ring.
Qed.

(** C77 *)
Theorem C77_pose_clear : forall r scene q lamk muk cs, rigid (r_tfb r) -> Forall one_box (r_links r) -> proper_scene scene ->
  create_cc_for_joint_pose r (flat_map (fun l => get_polyhedrons (l_geom l)) (r_links r)) (get_polyhedrons scene) q lamk muk = Ok cs -> Forall (fun c => c) cs ->
  exists fs, fk_all_links_casadi r q = Ok fs /\ clear_of r scene fs.
Proof. exact pose_certified. Qed.
Print Assumptions C77_pose_clear.
(** C77: clear frames mean that an exact box test finds no link in collision with the scene. *)
Theorem C77_no_collision : forall prim r scene qk fs, good r -> exact_prim prim -> rigid (r_tfb r) -> Forall one_box (r_links r) -> proper_scene scene ->
  snd (fk_all_links r qk) = Ok fs -> clear_of r scene fs ->
  forall i l T, nth_error (r_links r) i = Some l -> nth_error fs i = Some T -> is_in_collision prim (l_geom l) scene (Some T) None = false.
Proof. exact clear_no_collision. Qed.
Print Assumptions C77_no_collision.
Example C77_example : let r := rob1 (Coll [cube] [eye4]) in
  good r /\ rigid (r_tfb r) /\ Forall one_box (r_links r) /\ proper_scene wall /\ exists fs, snd (fk_all_links r [0; 0; 0; 0; 0; 0]) = Ok fs /\ clear_of r wall fs.
Proof.
  intros r. assert (G : good r) by (apply robot_init_good; repeat constructor). assert (B : rigid (r_tfb r)) by apply rigid_eye.
  assert (O : Forall one_box (r_links r)) by (constructor; [|constructor]; exists cube, eye4; split; [reflexivity|apply rigid_eye]).
  assert (W : proper_scene wall) by (split; [reflexivity|]; constructor; [apply at_x_rigid|constructor]).
  assert (F : feasible [[0; 0; 0]] r (Some wall) [[0; 0; 0; 0; 0; 0]] lam1 mu1) by (apply problem1; eexists _, _; reflexivity).
  do 4 (split; [assumption|]). exact (feasible_clear _ r wall _ _ _ G ltac:(repeat constructor) B O W F 0%nat _ eq_refl).
Qed.

(** C78: fk of the joint row of each point reaches the point ... *)
Theorem C78_path_followed : forall xyz r scene q lam mu, good r -> revolute r -> feasible xyz r scene q lam mu ->
  forall k p, nth_error xyz k = Some p -> exists qk T x y z rest, nth_error q k = Some qk /\ snd (fk r qk) = Ok T /\ p = x :: y :: z :: rest /\ pos T = V3 x y z.
Proof. exact feasible_path. Qed.
Print Assumptions C78_path_followed.
(** C78: ... and all links are clear of the scene there. *)
Theorem C78_links_clear : forall xyz r scene q lam mu, good r -> revolute r -> rigid (r_tfb r) -> Forall one_box (r_links r) -> proper_scene scene -> feasible xyz r (Some scene) q lam mu ->
  forall k qk, nth_error q k = Some qk -> exists fs, snd (fk_all_links r qk) = Ok fs /\ clear_of r scene fs.
Proof. exact feasible_clear. Qed.
Print Assumptions C78_links_clear.
(** a one-link robot with a box, a wall, one path point *)
Example C78_example : feasible [[0; 0; 0]] (rob1 (Coll [cube] [eye4])) (Some wall) [[0; 0; 0; 0; 0; 0]] lam1 mu1 /\
  good (rob1 (Coll [cube] [eye4])) /\ revolute (rob1 (Coll [cube] [eye4])) /\ Forall one_box (r_links (rob1 (Coll [cube] [eye4]))) /\ proper_scene wall.
Proof.
  split; [apply problem1; eexists _, _; reflexivity|]. split; [apply robot_init_good; repeat constructor|]. split; [repeat constructor|]. split.
  - constructor; [|constructor]. exists cube, eye4. split; [reflexivity|apply rigid_eye].
  - split; [reflexivity|]. constructor; [apply at_x_rigid|constructor].
Qed.

(** C93: refuted: with two boxes on a link only the first is constrained. *)
Theorem C93_two_boxes_refuted : feasible [[0; 0; 0]] (rob1 two_boxes) (Some wall) [[0; 0; 0; 0; 0; 0]] lam1 mu1 /\
  exists fs x, snd (fk_all_links (rob1 two_boxes) [0; 0; 0; 0; 0; 0]) = Ok fs /\ nth_error fs 0 = Some eye4 /\ in_box cube (tmul eye4 (at_x 10)) x /\ in_box cube (at_x 10) x.
Proof. exact second_box_ignored. Qed.
Print Assumptions C93_two_boxes_refuted.

(** C94 *)
Theorem C94_objective_nonneg : forall q, 0 <= objective q.
Proof. exact objective_nonneg. Qed.
Print Assumptions C94_objective_nonneg.
Theorem C94_objective_zero : forall n q, Forall (fun row : list R => length row = n) q -> objective q = 0 -> forall a b, In a q -> In b q -> a = b.
Proof. exact objective_zero. Qed.
Print Assumptions C94_objective_zero.
Example C94_example : objective [[1; 2]; [1; 2]; [1; 2]] = 0 /\ objective [[1; 2]; [2; 4]] = 5.
Proof. unfold objective. cbn. split; lra. Qed.
Theorem C94_objective_constant : forall a n, objective (repeat a n) = 0.
Proof. exact objective_const. Qed.
Print Assumptions C94_objective_constant.
