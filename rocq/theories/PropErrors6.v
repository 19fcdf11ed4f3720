(** * Property theorem C147, continued: planning without points, graphs without columns,
    free orientations at the rotation table. *)
From Coq Require Import String Reals Lra Lia List Bool Arith ZArith.
From Verif Require Import PyBase Cost GraphCommon CppGraph CppExamples Mat Util Geometry Robot RobotProofs HaltonProofs Ik Path Planning Resources Pipeline Examples ErrorProofs6.
Import ListNotations.
Local Open Scope R_scope.

(** C147: get_shortest_path of no columns, and a grid plan of no points, raise IndexError. *)
Theorem C147_no_columns : forall (K : CostStruct) F f1 (sq_acc : K -> F -> F -> F -> K) pq to32 method ow, Planning.get_shortest_path f1 sq_acc pq to32 [] method ow = Raise IndexError.
Proof. exact @no_columns. Qed.
Print Assumptions C147_no_columns.
Theorem C147_no_points : forall O (get : O -> robot) put prim to32 ik (K : CostStruct) (sq_acc : K -> R -> R -> R -> K) pq samples scene method ow o,
  grid_plan get put prim to32 ik sq_acc pq samples scene [] method ow o = (o, Raise IndexError).
Proof. exact @no_points. Qed.
Print Assumptions C147_no_points.
(** C147: the C++ graph reads out of bounds when searched by Dijkstra without columns, and when built without data. *)
Theorem C147_no_graph : forall (K : CostStruct) F f1 (sq_acc : K -> F -> F -> F -> K) pq (g : cgraph K F), na g = [] -> run_dijkstra sq_acc pq g = Raise OutOfBounds /\ (gd g = [] -> CppGraph.init f1 g = Raise OutOfBounds).
Proof. exact @no_graph. Qed.
Print Assumptions C147_no_graph.
Example C147_no_graph_example : na (@cnew ZCost nat) = [] /\ gd (@cnew ZCost nat) = []. Proof. split; reflexivity. Qed.
(** C147: the rotation table cannot be used with points of free orientation: ValueError. *)
Theorem C147_free_table : forall O (get : O -> robot) put prim to32 ik ypr fuel scene p rnd path qt q_table qf tb o l F, (100 <= length rnd)%nat -> Forall unit_row rnd -> snd (fk tb qt) = Ok F ->
  snd (table_columns get put prim to32 ik (pt_discretise ypr fuel) scene (Pipeline.PFree p rnd :: path) (qt :: q_table) qf tb o l) = Raise ValueError.
Proof. exact @free_table. Qed.
Print Assumptions C147_free_table.
Example C147_free_table_example : (100 <= length (repeat [0; 0; 0] 100))%nat /\ Forall unit_row (repeat [0; 0; 0] 100) /\ exists F, snd (fk table_robot [0]) = Ok F.
Proof.
  split; [rewrite repeat_length; auto|]. split; [|eexists; reflexivity]. apply Forall_forall. intros r I. apply repeat_spec in I. subst r. exists 0, 0, 0. split; auto. lra.
Qed.
