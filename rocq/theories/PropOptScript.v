(** * C159: the optimisation example. *)
From Coq Require Import Reals Lra List Bool Arith Lia.
From Verif Require Import PyBase Mat Util Geometry GeometryProofs Robot RobotProofs Ik IkProofs KukaProofs Resources ResourcesProofs Optim OptimProofs OptimDual PipelineExamples OptScript OptScriptProofs.
Import ListNotations.
Local Open Scope R_scope.

(** C159: the inverse kinematics of the first point returns eight rows of six angles, all of which reach it exactly. *)
Theorem C159_rows : snd (kuka_ik kuka_object tee) = Ok (IkOk (Own rows8)) /\ length rows8 = 8%nat /\ forall q, In q rows8 -> length q = 6%nat /\ snd (fk (KukaG 0.18 0.6 0.62 0.115) q) = Ok tee.
Proof. exact (conj (proj1 tee_ik) (conj (proj2 tee_ik) tee_rows)). Qed.
Print Assumptions C159_rows.
(** C159: with a hand that points straight up over the table, less than 0.285 above the floor, link 5 is inside the table. *)
Theorem C159_up : forall prim r q T, exact_prim prim -> good r -> same_links r (KukaG 0.18 0.6 0.62 0.115) -> rigid (r_tfb r) -> r_tool r = None -> (6 <= length q)%nat -> snd (fk r q) = Ok T -> col2 (rot T) = V3 0 0 1 ->
  0.55 <= vx (pos T) <= 1.05 -> -0.25 <= vy (pos T) <= 0.25 -> 0.1 <= vz (pos T) <= 0.285 -> snd (robot_collision prim r q scene1) = Ok true /\ ~ clear_pose r scene1 q.
Proof. exact up_hits. Qed.
Print Assumptions C159_up.
Example C159_up_example : exists q, length q = 6%nat /\ snd (fk (KukaG 0.18 0.6 0.62 0.115) q) = Ok tee /\ col2 (rot tee) = V3 0 0 1.
Proof.
  exists (nth 0 rows8 []). assert (I : In (nth 0 rows8 []) rows8) by (apply nth_In; unfold rows8; rewrite (proj2 tee_ik); lia). apply tee_rows in I. destruct I. auto.
Qed.
(** C159: so every row collides with the table ... *)
Theorem C159_rows_hit : forall prim q, exact_prim prim -> In q rows8 -> snd (robot_collision prim (KukaG 0.18 0.6 0.62 0.115) q scene1) = Ok true /\ ~ clear_pose (KukaG 0.18 0.6 0.62 0.115) scene1 q.
Proof. exact rows_hit. Qed.
Print Assumptions C159_rows_hit.
(** C159: ... and the initial guess of the script meets the constraints for no multipliers. *)
Theorem C159_guess : forall lam mu, ~ feasible (path_ori_free 15) (KukaG 0.18 0.6 0.62 0.115) (Some scene1) guess lam mu.
Proof. exact guess_infeasible. Qed.
Print Assumptions C159_guess.
(** C159: the problem itself has a solution, for every number of points. *)
Theorem C159_feasible : forall N, exists q lam mu, feasible (path_ori_free N) (KukaG 0.18 0.6 0.62 0.115) (Some scene1) q lam mu.
Proof. exact line_feasible. Qed.
Print Assumptions C159_feasible.
(** C159: a robot of at most six revolute links with one box each and points of three coordinates: building the problem does not raise. *)
Theorem C159_built : forall xyz r scene solver, good r -> revolute r -> (1 <= ndof r <= 6)%nat -> Forall one_box (r_links r) -> Forall (fun p => (3 <= length p)%nat) xyz ->
  get_optimal_path xyz r scene solver = match solver with None => Raise GenericException | Some (true, q) => Ok (OptOk q) | Some (false, _) => Ok OptFail end.
Proof. exact path_built. Qed.
Print Assumptions C159_built.
Example C159_built_example : good (KukaG 0.18 0.6 0.62 0.115) /\ revolute (KukaG 0.18 0.6 0.62 0.115) /\ (1 <= ndof (KukaG 0.18 0.6 0.62 0.115) <= 6)%nat /\ Forall one_box (r_links (KukaG 0.18 0.6 0.62 0.115)).
Proof. destruct kuka6_facts as (A & B & _ & D & _). split; [exact A|]. split; [exact B|]. split; [split; repeat constructor|exact D]. Qed.
(** C159: the script depends on the solver only: index 5 and the key "sol" exist. *)
Theorem C159_run : forall solve, script solve = match solve guess with None => Raise GenericException | Some (true, q) => Ok q | Some (false, _) => Raise KeyError end.
Proof. exact script_run. Qed.
Print Assumptions C159_run.
(** C159: with a sound solver the path of the script passes the fifteen points, keeps the links off the table and is not the guess. *)
Theorem C159_returned : forall solve p, solver_sound (path_ori_free 15) (KukaG 0.18 0.6 0.62 0.115) (Some scene1) (solve guess) -> script solve = Ok p ->
  length p = 15%nat /\ Forall (fun row => length row = 6%nat) p /\ Forall2 (at_point (KukaG 0.18 0.6 0.62 0.115)) (path_ori_free 15) p /\ Forall (clear_pose (KukaG 0.18 0.6 0.62 0.115) scene1) p /\ p <> guess.
Proof. exact script_returns. Qed.
Print Assumptions C159_returned.
Example C159_returned_example : exists solve p, solver_sound (path_ori_free 15) (KukaG 0.18 0.6 0.62 0.115) (Some scene1) (solve guess) /\ script solve = Ok p.
Proof. exact script_solvable. Qed.
