(** * C160: how iterative_grid_refining.py ends, the table of tool_first_cc.py.

    [pt_ok n]: the point has at least n rows of three numbers, the first in [0, 1].
    [candidate … tp q]: q is a solution of a sampled frame of tp without contact.
    [floor]: the table of tool_first_cc.py.  [near]: the method random_near that
    pyquaternion would need; None for the published package. *)
From Coq Require Import String Reals Lra List Bool Arith Lia.
From Verif Require Import PyBase Cost SpecPath GraphCommon CppGraph CppGraphProofs CppSearch CppHeap CppMain CppFinal CppExamples Mat Util UtilProofs HaltonProofs Geometry GeometryProofs Robot RobotProofs Ik IkProofs KukaProofs Path Planning PlanningProofs Resources ResourcesProofs Pipeline PipelineProofs PipelineExamples LocalIk Margin Iterative IterativeProofs PyGraph PyCost PyCostProofs Io Tasks TasksProofs Gui TorchProofs IncAgain Scripts ScriptsProofs ScriptsRuns ScriptsMore.
Import ListNotations.
Local Open Scope R_scope.

(** C160: a point without a candidate in the first round makes iterative_grid_refining.py
    fail on the missing costs, also with a package that has random_near. *)
Theorem C160_refine_lost : forall prim to32 pq ypr fuel near draws, Forall (pt_ok 500) (free_line 15 draws) ->
  Exists (fun tp => forall q, ~ candidate prim kuka_object scene1 (pt_samples ypr fuel 500) tp q) (free_line 15 draws) -> refine_script prim to32 pq ypr fuel near draws = Raise KeyError.
Proof. exact refine_lost. Qed.
Print Assumptions C160_refine_lost.
(** C160: with the published package there is no third way to end. *)
Theorem C160_refine_ends : forall prim to32 pq ypr fuel draws, pq_ok pq -> Forall (pt_ok 500) (free_line 15 draws) ->
  (Exists (fun tp => forall q, ~ candidate prim kuka_object scene1 (pt_samples ypr fuel 500) tp q) (free_line 15 draws) /\ refine_script prim to32 pq ypr fuel None draws = Raise KeyError) \/
  (Forall (fun tp => exists q, candidate prim kuka_object scene1 (pt_samples ypr fuel 500) tp q) (free_line 15 draws) /\ refine_script prim to32 pq ypr fuel None draws = Raise AttributeError).
Proof. exact refine_ends. Qed.
Print Assumptions C160_refine_ends.
(** C160: the table of tool_first_cc.py is half a metre square and a tenth high, around (0.8, 0, 0). *)
Theorem C160_floor : forall x, in_coll floor None x <-> Rabs (vx x - 0.8) <= 0.25 /\ Rabs (vy x) <= 0.25 /\ Rabs (vz x) <= 0.05.
Proof. exact floor_box. Qed.
Print Assumptions C160_floor.
(** Non-vacuity: 500 times the same row; a check that sees contact everywhere leaves no candidate. *)
Example lost_here : let draws := fun _ : nat => repeat [0.5; 0.5; 0.5] 500 in Forall (pt_ok 500) (free_line 15 draws) /\
  forall ypr fuel, Exists (fun tp => forall q, ~ candidate (fun _ _ _ _ _ _ => true) kuka_object scene1 (pt_samples ypr fuel 500) tp q) (free_line 15 draws).
Proof. exact lost_example. Qed.
