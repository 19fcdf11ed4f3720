(** * C160: the remaining scripts of examples/, and when incremental planning ends.

    [drawn rnd u]: u holds the numbers of the quaternion made of one of the first ten rows
    of rnd.  [pt_ok n]: the point has at least n rows of three numbers, the first in [0, 1].  [joints_within d
    s row]: every number of row is closer than d to that of s.  [candidate … tp q]: q is a
    solution of a sampled frame of tp without contact.  [floor], [scene1]: the tables of
    tool_first_cc.py and path_on_table.py.  [near] of [refine_script]: the method
    random_near that pyquaternion would need; None for the published package. *)
From Coq Require Import String Reals Lra List Bool Arith Lia.
From Verif Require Import PyBase Cost SpecPath GraphCommon CppGraph CppGraphProofs CppSearch CppHeap CppMain CppFinal CppExamples Mat Util UtilProofs HaltonProofs Geometry GeometryProofs Robot RobotProofs Ik IkProofs KukaProofs Path Planning PlanningProofs Resources ResourcesProofs Pipeline PipelineProofs PipelineExamples LocalIk Margin Iterative IterativeProofs PyGraph PyCost PyCostProofs Io Tasks TasksProofs Gui TorchProofs IncAgain Scripts ScriptsProofs ScriptsRuns.
Import ListNotations.
Local Open Scope R_scope.

(** C160: quat_graph.py finds a shortest way through one quaternion of each list, no
    shorter than the arc between its ends and at most a quarter turn per step. *)
Theorem C160_quat_graph : forall ypr fuel draws, draws <> [] -> Forall (fun rnd => (10 <= length rnd)%nat /\ Forall unit_row rnd) draws ->
  exists x p, quat_graph ypr fuel draws = Ok (SpOk (x :: p) (Some (way (x :: p)) : RCost)) /\ Forall2 drawn draws (x :: p) /\
    arc x (last p x) <= way (x :: p) <= INR (length draws - 1) * (PI / 2) /\ forall p', Forall2 drawn draws p' -> way (x :: p) <= way p'.
Proof. exact quat_graph_ok. Qed.
Print Assumptions C160_quat_graph.
(** C160: cart_to_joint_tool_first_cc, which tool_first_cc.py is named after, always raises. *)
Theorem C160_tool_first_raises : forall r, tool_first_cc r = Raise (match r_links r with [] => IndexError | _ => AttributeError end).
Proof. exact tool_first_raises. Qed.
Print Assumptions C160_tool_first_raises.
(** C160: tool_first_cc.py never raises; "No path found" only when a point has no
    candidate, a path is clear of the table and goes through the points. *)
Theorem C160_tool_first : forall prim to32 pq, exact_prim prim -> pq_ok pq -> forall ypr fuel draws, Forall (pt_ok 1000) (free_line 5 draws) ->
  exists r, tool_first_script prim to32 pq ypr fuel draws = Ok r /\
  match r with None => Exists (fun tp => forall q, ~ candidate prim kuka_object floor (pt_samples ypr fuel 1000) tp q) (free_line 5 draws)
             | Some rows => Forall2 (fun tp row => exists q T, row = map to32 q /\ allowed tp T /\ reaches 0.6 0.62 (k_rob kuka_object) q T /\ clear (k_rob kuka_object) floor q) (free_line 5 draws) rows end.
Proof. exact @tool_first_runs. Qed.
Print Assumptions C160_tool_first.
(** C160: and it finds a path when each point draws a row near a certain one. *)
Theorem C160_tool_first_found : exists s d, unit_row s /\ 0 < d /\ forall prim to32 pq ypr fuel draws, exact_prim prim -> pq_ok pq -> Forall (pt_ok 1000) (free_line 5 draws) ->
  (forall i, (i < 5)%nat -> exists row, In row (firstn 1000 (draws i)) /\ joints_within d s row) -> exists rows, tool_first_script prim to32 pq ypr fuel draws = Ok (Some rows).
Proof. exact (tool_first_found 0). Qed.
Print Assumptions C160_tool_first_found.
(** C160: with the published pyquaternion iterative_grid_refining.py never gets a result, *)
Theorem C160_refine_never : forall prim to32 pq ypr fuel draws r, refine_script prim to32 pq ypr fuel None draws <> Ok r.
Proof. exact refine_never. Qed.
Print Assumptions C160_refine_never.
(** C160: and raises AttributeError as soon as its first round finds a path. *)
Theorem C160_refine_raises : exists s d, unit_row s /\ 0 < d /\ forall prim to32 pq ypr fuel draws, exact_prim prim -> pq_ok pq -> Forall (pt_ok 500) (free_line 15 draws) ->
  (forall i, (i < 15)%nat -> exists row, In row (firstn 500 (draws i)) /\ joints_within d s row) -> refine_script prim to32 pq ypr fuel None draws = Raise AttributeError.
Proof. exact (refine_raises 0). Qed.
Print Assumptions C160_refine_raises.
(** C160: incremental planning ends when for every point draws with a clear solution keep turning up, *)
Theorem C160_ends : forall prim to32 a1 a2 d4 d6, a2 * d4 <> 0 -> forall k0, kuka_ok a1 a2 d4 d6 k0 -> forall samples scene path mn mx, Forall (recurs prim k0 samples scene) path ->
  exists Q f0, forall fuel, (f0 <= fuel)%nat -> snd (kuka_inc_columns prim to32 fuel samples scene path mn mx k0 0%nat) = Ok Q.
Proof. exact @inc_ends_again. Qed.
Print Assumptions C160_ends.
(** C160: and then succeeds. *)
Theorem C160_succeeds : forall prim to32 a1 a2 d4 d6, a2 * d4 <> 0 -> forall k0, kuka_ok a1 a2 d4 d6 k0 -> forall samples scene path mn mx pq,
  path <> [] -> (0 < mn)%nat -> (0 < mx)%nat -> pq_ok pq -> Forall (recurs prim k0 samples scene) path ->
  exists rows f0, let cost := walk_cost (K := RCost) (jcost (K := RCost) rsq (eff_weights 1 6 None)) in
    forall fuel, (f0 <= fuel)%nat -> snd (kuka_inc_plan prim to32 (K := RCost) rsq pq fuel samples scene path mn mx k0) = Ok (GspOk rows (cost rows)).
Proof. exact @inc_succeeds. Qed.
Print Assumptions C160_succeeds.
(** C160: follow_line_orientation_free.py ends with a path when draws near a certain one keep coming, *)
Theorem C160_line_ends : exists s d, unit_row s /\ 0 < d /\ forall prim to32 pq ypr fuel' src, exact_prim prim -> pq_ok pq -> (forall j, (1 <= length (src j))%nat /\ Forall unit_row (src j)) ->
  (forall j, exists j' row rest, (j <= j')%nat /\ src j' = row :: rest /\ joints_within d s row) ->
  exists rows f0, forall fuel, (f0 <= fuel)%nat -> line_script prim to32 pq fuel ypr fuel' src = Ok rows.
Proof. exact (line_script_ends 0). Qed.
Print Assumptions C160_line_ends.
(** C160: whose ten rows go through the points of the task, clear of its table. *)
Theorem C160_line_sound : forall prim to32 pq fuel ypr fuel' src rows, exact_prim prim -> (forall j, (1 <= length (src j))%nat /\ Forall unit_row (src j)) -> line_script prim to32 pq fuel ypr fuel' src = Ok rows ->
  length rows = 10%nat /\ forall k row, nth_error rows k = Some row -> exists q T, row = map to32 q /\ rigid T /\ pos T = V3 0.8 (-0.2 + INR k / 9 * 0.4) 0.2 /\ reaches 0.6 0.62 (k_rob kuka_object) q T /\ clear (k_rob kuka_object) scene1 q.
Proof. exact line_script_sound. Qed.
Print Assumptions C160_line_sound.
(** C160: a path of weld_circle.py goes through the passage without contact; off the
    singularities the torch stands upright in the middle. *)
Theorem C160_weld : forall prim to32 pq fuel ypr fuel' src rows, exact_prim prim -> (forall j, (1 <= length (src j))%nat /\ Forall unit_row (src j)) -> weld_script prim to32 pq fuel ypr fuel' src = Ok rows ->
  length rows = 15%nat /\ (forall k row, nth_error rows k = Some row -> exists q T, row = map to32 q /\ rigid T /\ pos T = V3 0.8 (-0.1 + INR k / 14 * 0.2) 0 /\ reaches 0.6 0.62 (k_rob torch_kuka) q T /\ clear (k_rob torch_kuka) (passage_boxes 0.8) q /\
     (k = 7%nat -> sin (nth 4 q 0) <> 0 -> cos (nth 2 q 0) <> 0 -> 0.745 <= vz (col2 (rot T)))).
Proof. exact weld_upright. Qed.
Print Assumptions C160_weld.
Example C160_example : (exists draws, draws <> [] /\ Forall (fun rnd => (10 <= length rnd)%nat /\ Forall unit_row rnd) draws) /\
  forall s d, unit_row s -> 0 < d -> (Forall (pt_ok 1000) (free_line 5 (fun _ => repeat s 1000)) /\ Forall (pt_ok 500) (free_line 15 (fun _ => repeat s 500)) /\
    (forall j : nat, (1 <= length ((fun _ => [s]) j))%nat /\ Forall unit_row ((fun _ => [s]) j)) /\ forall n, (0 < n)%nat -> exists row, In row (firstn n (repeat s n)) /\ joints_within d s row) /\
  exact_prim box_test /\ pq_ok (scan_queue : pqueue RCost R).
Proof.
  split.
  - exists [repeat [0; 0; 0] 10]. split; [discriminate|]. constructor; [|constructor]. split; [cbn; lia|]. apply Forall_forall. intros r I. apply repeat_spec in I. subst r. exists 0, 0, 0. split; auto. lra.
  - intros s d U D. split; [|split; [exact box_test_exact|apply scan_queue_ok]].
    assert (F : forall n, Forall unit_row (repeat s n)) by (intros n; apply Forall_forall; intros r I; apply repeat_spec in I; subst r; exact U).
    assert (P : forall N n, Forall (pt_ok n) (free_line N (fun _ => repeat s n))).
    { intros N n. apply Forall_forall. intros tp I. destruct (In_nth_error _ _ I) as (i & E). destruct (line_point _ _ _ _ E) as (_ & y & _ & _ & ->). split; [eauto|]. split; [rewrite repeat_length; auto|apply F]. }
    split; [apply P|]. split; [apply P|]. split; [intros j; cbn; auto|].
    intros n L. destruct n as [|n]; [lia|]. exists s. split; [left; reflexivity|]. destruct U as (a & b & c & -> & _). repeat constructor; rewrite Rminus_diag_eq, Rabs_R0; auto.
Qed.
