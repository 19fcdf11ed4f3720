(** * Property theorems C121-C123: the task editor.

    [kuka_run ... e vs]: the editor after the callbacks vs, with a Kuka;
    [rail_run]: with a KukaOnRail.  [kuka_step e v]: the editor after callback v
    and its result.  [scene_at], [paths_at]: what loading the file of that name
    gives.  [new_editor k wdir]: a TaskEditor just made.  [as_path draws path]:
    the points of the path with the random numbers of a planning run.
    [all_return e vs]: no callback of vs, run from e, raises.  [no_load v]: v
    loads neither scene nor paths.  Other names as in C109-C112. *)
From Coq Require Import String List Arith Bool Lia Reals Lra ZArith.
From Verif Require Import PyBase Cost GraphCommon CppGraph CppGraphProofs CppSearch CppHeap CppMain CppExamples Mat Util Geometry GeometryProofs Robot RobotProofs Ik IkProofs KukaProofs RailProofs Path PathProofs Planning Io Pipeline PipelineProofs PipelineRail PipelineExamples Gui GuiProofs GuiKuka GuiLayout.
Import ListNotations.
Local Open Scope R_scope.

(** C121: refuted: after loading another path (here of two points) the old solution (of one) is still there to show; no callback raised. *)
Theorem C121_stale_refuted : forall prim to32 pq ypr fuel, exact_prim prim -> pq_ok pq -> exists scene_at paths_at vs,
  let e0 := new_editor bare_kuka "" in let e := kuka_run prim to32 (K := RCost) rsq pq ypr fuel scene_at paths_at e0 vs in
  all_return prim to32 (K := RCost) rsq pq ypr fuel scene_at paths_at e0 vs /\
  exists row, e_solution e = Some [row] /\ length (e_path e) = 2%nat.
Proof. exact stale. Qed.
Print Assumptions C121_stale_refuted.
(** C121: in every run the solution is that of the last planning that returned: clear of the scene and on the path of that moment, which are the current ones if nothing was loaded since. *)
Theorem C121_kuka_partial : forall prim to32 a1 a2 d4 d6, a2 * d4 <> 0 -> forall k, kuka_ok a1 a2 d4 d6 k ->
  forall (K : CostStruct) (sq_acc : K -> R -> R -> R -> K) pq ypr fuel scene_at paths_at wdir vs rows,
  exact_prim prim -> solid (k_rob k) -> (forall name sc, scene_at name = Ok sc -> rigid_coll sc) ->
  let run := kuka_run prim to32 sq_acc pq ypr fuel scene_at paths_at in let step := kuka_step prim to32 sq_acc pq ypr fuel scene_at paths_at in let e0 := new_editor k wdir in
  e_solution (run e0 vs) = Some rows ->
  exists before draws after scene, let e := run e0 before in
    vs = before ++ Plan draws :: after /\ e_scene e = Some scene /\
    (forall us d ws, after = us ++ Plan d :: ws -> snd (step (run e (Plan draws :: us)) (Plan d)) <> Ok tt) /\
    (Forall (pt_ok 1000) (as_path draws (e_path e)) ->
     Forall2 (fun tp row => exists q T, row = map to32 q /\ allowed tp T /\ reaches a2 d4 (k_rob k) q T /\ clear (k_rob k) scene q) (as_path draws (e_path e)) rows) /\
    (Forall no_load after -> e_scene (run e0 vs) = Some scene /\ e_path (run e0 vs) = e_path e).
Proof. exact @kuka_shown. Qed.
Print Assumptions C121_kuka_partial.
Theorem C121_rail_partial : forall prim to32 rl, rail_ok 0.18 0.6 0.62 0.115 rl ->
  forall (K : CostStruct) (sq_acc : K -> R -> R -> R -> K) pq ypr fuel scene_at paths_at wdir vs rows,
  exact_prim prim -> solid (rl_rob rl) -> (forall name sc, scene_at name = Ok sc -> rigid_coll sc) ->
  let run := rail_run prim to32 sq_acc pq ypr fuel scene_at paths_at in let step := rail_step prim to32 sq_acc pq ypr fuel scene_at paths_at in let e0 := new_editor rl wdir in
  e_solution (run e0 vs) = Some rows ->
  exists before draws after scene, let e := run e0 before in
    vs = before ++ Plan draws :: after /\ e_scene e = Some scene /\
    (forall us d ws, after = us ++ Plan d :: ws -> snd (step (run e (Plan draws :: us)) (Plan d)) <> Ok tt) /\
    (Forall disc_ok (as_path draws (e_path e)) ->
     Forall2 (fun tp row => exists q g T, row = map to32 q /\ In g (linspace (-0.5) 0.5 10) /\ allowed tp T /\ rail_reaches (rl_rob rl) q g T /\ clear (rl_rob rl) scene q) (as_path draws (e_path e)) rows) /\
    (Forall no_load after -> e_scene (run e0 vs) = Some scene /\ e_path (run e0 vs) = e_path e).
Proof. exact @rail_shown. Qed.
Print Assumptions C121_rail_partial.
Example C121_example : kuka_ok 0.18 0.6 0.62 0.115 bare_kuka /\ solid (k_rob bare_kuka) /\ rigid_coll (Coll [] []).
Proof. split; [exact bare_ok|]. split; [exact bare_solid|constructor]. Qed.

(** C122: refuted: while no scene is loaded, loading paths and planning raise, for every robot. *)
Theorem C122_no_scene_refuted : forall (O : Type) (get : O -> robot) put ik6 ik7 prim to32 (K : CostStruct) (sq_acc : K -> R -> R -> R -> K) pq ypr fuel scene_at paths_at (e : editor O),
  e_scene e = None -> let step := step get put ik6 ik7 prim to32 sq_acc pq ypr fuel scene_at paths_at in
  snd (step e LoadPaths) <> Ok tt /\ forall draws, snd (step e (Plan draws)) <> Ok tt.
Proof. exact @without_scene. Qed.
Print Assumptions C122_no_scene_refuted.
Example C122_no_scene_example : e_scene (new_editor bare_kuka "") = None. Proof. reflexivity. Qed.
(** C122: refuted: a file with a position tolerance cannot be loaded, and afterwards no scene can be loaded and no solution shown without exception. *)
Theorem C122_position_refuted : forall (O : Type) (get : O -> robot) put ik6 ik7 prim to32 (K : CostStruct) (sq_acc : K -> R -> R -> R -> K) pq ypr fuel scene_at paths_at (e : editor O),
  has_pos (e_paths e) -> let step := step get put ik6 ik7 prim to32 sq_acc pq ypr fuel scene_at paths_at in
  snd (step e LoadScene) <> Ok tt /\ (e_solution e <> None -> snd (step e ShowPath) <> Ok tt).
Proof. exact @with_position. Qed.
Print Assumptions C122_position_refuted.
Theorem C122_position_file_refuted : forall (O : Type) (get : O -> robot) put ik6 ik7 prim to32 (K : CostStruct) (sq_acc : K -> R -> R -> R -> K) pq ypr fuel scene_at paths_at (e : editor O) ps,
  paths_at (full_name e (e_paths_filename e)) = Ok ps -> has_pos ps -> snd (step get put ik6 ik7 prim to32 sq_acc pq ypr fuel scene_at paths_at e LoadPaths) <> Ok tt.
Proof. exact @load_position. Qed.
Print Assumptions C122_position_file_refuted.
Example C122_position_example : exists p, new_pospt [Fix 0; Fix 0; Tol (TN 0 1 0.5 3)] (Quat 1 0 0 0) = Ok p /\ has_pos [[Io.PPos p]].
Proof. eexists. split; [reflexivity|]. eexists [_], _. split; left; reflexivity. Qed.
(** C122: refuted: planning raises when some point has no collision-free solution; the old solution stays. *)
Theorem C122_unreachable_refuted : forall prim to32 a1 a2 d4 d6, a2 * d4 <> 0 -> forall k, kuka_ok a1 a2 d4 d6 k ->
  forall (K : CostStruct) (sq_acc : K -> R -> R -> R -> K) pq ypr fuel scene_at paths_at wdir vs draws sc tp,
  let e := kuka_run prim to32 sq_acc pq ypr fuel scene_at paths_at (new_editor k wdir) vs in
  e_scene e = Some sc -> In tp (as_path draws (e_path e)) -> (forall q, ~ candidate prim k sc (pt_samples ypr fuel 1000) tp q) ->
  snd (kuka_step prim to32 sq_acc pq ypr fuel scene_at paths_at e (Plan draws)) <> Ok tt /\
  e_solution (fst (kuka_step prim to32 sq_acc pq ypr fuel scene_at paths_at e (Plan draws))) = e_solution e.
Proof. exact @kuka_unreachable. Qed.
Print Assumptions C122_unreachable_refuted.
Example C122_unreachable_example : forall prim k sc ypr fuel, exists p, new_eulerpt [Fix 0; Fix 0; Tol (TN 0 1 0.5 0)] [Fix 0; Fix 0; Fix 0] = Ok p /\ forall q, ~ candidate prim k sc (pt_samples ypr fuel 1000) (PEuler p) q.
Proof. intros. eexists. split; [reflexivity|]. intros q (Ts & T & E & I1 & _). cbn in E. injection E as <-. destruct I1. Qed.
(** C122: load a scene, load paths, plan and show return for a Kuka when files, points and obstacles permit. *)
Theorem C122_works_partial : forall prim to32 a1 a2 d4 d6, a2 * d4 <> 0 -> forall k, kuka_ok a1 a2 d4 d6 k ->
  forall pq ypr fuel scene_at paths_at wdir sc path ps draws, exact_prim prim -> solid (k_rob k) -> pq_ok pq ->
  let e0 := new_editor k wdir in
  scene_at (full_name e0 (e_filename e0)) = Ok sc -> rigid_coll sc -> paths_at (full_name e0 (e_paths_filename e0)) = Ok (path :: ps) ->
  Forall (Forall drawable) (path :: ps) -> path <> [] -> Forall (reachable a1 a2 d4 k sc (pt_samples ypr fuel 1000)) (as_path draws path) ->
  let vs := [LoadScene; LoadPaths; Plan draws; ShowPath] in
  all_return prim to32 (K := RCost) rsq pq ypr fuel scene_at paths_at e0 vs /\
  exists rows, let e := kuka_run prim to32 (K := RCost) rsq pq ypr fuel scene_at paths_at e0 vs in
    e_solution e = Some rows /\ e_scene e = Some sc /\ e_path e = path /\ names e = names e0 /\ kinv a1 a2 d4 d6 k (e_robot e) /\ e_paths e = path :: ps /\
    Forall2 (fun tp row => exists q, candidate prim k sc (pt_samples ypr fuel 1000) tp q /\ row = map to32 q) (as_path draws path) rows.
Proof. exact kuka_works. Qed.
Print Assumptions C122_works_partial.
Example C122_works_example : forall ypr fuel, exists p, reachable 0.18 0.6 0.62 bare_kuka (Coll [] []) (pt_samples ypr fuel 1000) (PEuler p) /\ drawable (Io.PEuler p).
Proof. intros. apply bent_point. Qed.

(** C123: rows times cols slots are returned; they are proper rectangles inside the figure and no two share a point, when the margin is positive and leaves room. *)
Theorem C123_layout : forall rows cols margin, (1 <= rows)%nat -> (1 <= cols)%nat -> 0 < margin -> 2 * margin < 1 / INR rows -> 2 * margin < 1 / INR cols ->
  exists ss, create_layout_slots rows cols margin = Ok ss /\ length ss = rows /\ Forall (fun row => length row = cols) ss /\
  (forall i j, (i < rows)%nat -> (j < cols)%nat -> exists s, slot_at ss i j = Some s /\ good_slot s) /\
  (forall i j i' j' s s', slot_at ss i j = Some s -> slot_at ss i' j' = Some s' -> (i, j) <> (i', j') -> apart s s').
Proof. exact slots_total. Qed.
Print Assumptions C123_layout.
(** the call of the editor, create_layout_slots(10, 4, 0.02) *)
Example C123_example : exists ss, create_layout_slots 10 4 0.02 = Ok ss /\ 0 < 0.02 /\ 2 * 0.02 < 1 / INR 10 /\ 2 * 0.02 < 1 / INR 4.
Proof. eexists. split; [reflexivity|]. cbn. lra. Qed.

(** C123: slot (i, j) is the cell of row i and column j of the figure, cut by the margin on each of its four sides. *)
Theorem C123_cells : forall rows cols margin ss i j l b w h, create_layout_slots rows cols margin = Ok ss -> slot_at ss i j = Some (l, b, w, h) ->
  (i < rows)%nat /\ (j < cols)%nat /\ l = INR j / INR cols + margin /\ l + w = INR (S j) / INR cols - margin /\
  b = INR i / INR rows + margin /\ b + h = INR (S i) / INR rows - margin.
Proof. exact slots_cells. Qed.
Print Assumptions C123_cells.
(** the first slot of the editor *)
Example C123_cells_example : exists ss l b w h, create_layout_slots 10 4 0.02 = Ok ss /\ slot_at ss 0 0 = Some (l, b, w, h).
Proof. do 5 eexists. split; reflexivity. Qed.

(** C123: without rows or without columns the division by zero is raised. *)
Theorem C123_none : forall rows cols margin, rows = 0%nat \/ cols = 0%nat -> create_layout_slots rows cols margin = Raise ZeroDivisionError.
Proof. exact slots_none. Qed.
Print Assumptions C123_none.
Example C123_none_example : create_layout_slots 3 0 0.02 = Raise ZeroDivisionError.
Proof. reflexivity. Qed.
