(** * Property theorem C168, tests/test_planning.py: the task of n free points on the
    diagonal (n = 5 in the test).  [dot v]: a red dot at v.  [shows ls P]: the lines are
    the edges of the boxes in P. *)
From Coq Require Import List Arith Bool Reals.
From Verif Require Import PyBase Mat Util Geometry Path Plot PlotProofs Draw DrawProofs SuiteDraw.
Import ListNotations.
Local Open Scope R_scope.

(** Both tasks have the asserted has_obstacles, and plot draws the points and the box. *)
Theorem C168_planning_task : forall n, let dots := map (fun i => dot (V3 (INR i) (INR i) (INR i))) (seq 0 n) in
  has_obstacles (Some cube_scene) = true /\ has_obstacles None = false /\ task_plot (diagonal n) None = Ok (dots, []) /\
  exists ls, task_plot (diagonal n) (Some cube_scene) = Ok (dots, ls) /\ shows ls (fun s T => s = Shape 0.1 0.1 0.1 /\ T = eye4).
Proof. exact test_planning. Qed.
Print Assumptions C168_planning_task.
Example C168_planning_example : length (diagonal 5) = 5%nat.
Proof. reflexivity. Qed.
