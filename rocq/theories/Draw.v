(** * Model of the other drawing functions: reference frames, kinematic chains,
    path points and tasks, and of the scripts that only draw or export.

    A call of ax.plot is an [artist]: the line style, the colour ("" for the
    default) and the points.  Pictures of boxes are the lines of Plot.v.  What
    was drawn before an exception is left out, axes and figures too. *)
From Coq Require Import String List Arith Bool Reals.
From Verif Require Import PyBase Cost Dp Mat Util Geometry Robot Path Plot Io Urdf Tasks Examples.
Import ListNotations.
Local Open Scope R_scope.

Record artist : Type := Art { a_style : string; a_colour : string; a_pts : list vec3 }.
(** util.py:137-166 plot_reference_frame; [l] is arrow_length *)
Definition reference_frame (tf : option mat4) (l : R) : list artist :=
  let place (v : vec3) := match tf with Some T => vadd (mapply (rot T) v) (pos T) | None => v end in
  let x_axis := [V3 0 0 0; V3 l 0 0] in
  let y_axis := [V3 0 0 0; V3 0 l 0] in
  let z_axis := [V3 0 0 0; V3 0 0 l] in
  [Art "-" "r" (map place x_axis); Art "-" "g" (map place y_axis); Art "-" "b" (map place z_axis)].
(** the default of arrow_length *)
Definition arrow : R := 0.2.

(** robot.py:228-244 plot_kinematics; without links np.vstack gets an array of
    no columns *)
Definition plot_kinematics (r : robot) (q : list R) : robot * res (list artist) :=
  let base := reference_frame (Some (r_tfb r)) arrow in
  let (r1, fs) := fk_all_links r q in
  (r1, tf_links <- fs ;;
       match tf_links with
       | [] => Raise ValueError
       | _ =>
           let points := pos (r_tfb r1) :: map pos tf_links in
           let links := flat_map (fun tfi => reference_frame (Some tfi) arrow) tf_links in
           tool <- match r_tool r1 with
                   | Some (_, tf_tt) => tf <- py_last tf_links ;; Ok (reference_frame (Some (tmul tf tf_tt)) arrow)
                   | None => Ok []
                   end ;;
           Ok (base ++ Art "o-" "" points :: links ++ tool)
       end).

(** ** Path points *)
(** the five classes of path.py; TolOrientationPt is its array p *)
Inductive anypt : Type := AEuler (p : eulerpt) | APos (p : pospt) | AAxis (p : axispt) | AFree (p : list R) | AOri (p : list R).
(** ax.plot([p[0]], [p[1]], [p[2]], "o", c="r") *)
Definition marker (p : list R) : res artist :=
  x <- py_index p 0 ;; y <- py_index p 1 ;; z <- py_index p 2 ;; Ok (Art "o" "r" [V3 x y z]).
(** path.py:105-107, 155-156, 182-183, 222-223, 249-250: plot; pos_nom of a
    TolEulerPt is the first half of p_nominal *)
Definition point_plot (tp : anypt) : res (list artist) :=
  match tp with
  | AEuler e => m <- marker (firstn 3 (e_nominal e)) ;; T <- nominal_transform e ;; Ok (m :: reference_frame (Some T) arrow)
  | APos p => m <- marker (p_nom p) ;; Ok [m]
  | AAxis p => m <- marker (a_pos p) ;; Ok [m]
  | AFree p | AOri p => m <- marker p ;; Ok [m]
  end.
(** planning.py:85-89 PlanningTask.plot: the points, then the obstacles *)
Definition task_plot (path : list anypt) (scene : option coll) : res (list artist * list line) :=
  ps <- mapM point_plot path ;;
  ls <- match scene with Some sc => coll_plot sc None | None => Ok [] end ;;
  Ok (concat ps, ls).
Definition any_of (p : ppt) : anypt := match p with PFree x => AFree x | PPos x => APos x | PEuler x => AEuler x end.
(** io.py:145-148 load_task on the document, then task.plot: multiple_paths.py:8-15 *)
Definition draw_task (d : json) : res (list artist * list line) :=
  t <- parse_task_data d ;; task_plot (map any_of (fst t)) (Some (snd t)).
(** ** small_passage.py *)
(** small_passage.py:101-105: the torch at every second pose *)
Definition pass_drawn (tool : coll * mat4) (sol_tf : list mat4) : res (list (list line)) :=
  mapM (fun itf => coll_plot (fst tool) (Some (tmul (snd itf) (tf_inverse (snd tool)))))
       (filter (fun itf => Nat.eqb (fst itf mod 2) 0) (combine (seq 0 (length sol_tf)) sol_tf)).
(** small_passage.py:57 q_ref *)
Definition goal_quat : res quat := quat_axis_angle (V3 0 1 0) 1.5.
(** small_passage.py:53-66 cost_function_2: C_ref has as many rows as C2 *)
Definition ref_costs (q_ref : quat) (C1 C2 : list quat) : matrix RCost :=
  let C_ref := repeat q_ref (length C2) in
  {| m_cols := length C2;
     m_rows := map (fun u => map (fun vw => Some (turn_cost u (fst vw) ^ 2 + 0.5 * turn_cost u (snd vw) ^ 2) : RCost) (combine C2 C_ref)) C1 |}.
(** shortest_path(data, cost_function_2), the call the cost is written for *)
Definition ref_plan (data : list (list quat)) : res (dp_result RCost quat) :=
  q_ref <- goal_quat ;; shortest_path data (ref_costs q_ref).

(** ** task_to_urdf.py *)
(** task_to_urdf.py:14-22: the task is loaded and its scene exported; [s] is the
    scene as the numbers of the file *)
Definition task_to_urdf (N : numbers) (d : json) (s : scene N) (f : file) : res file :=
  _ <- parse_task_data d ;; Ok (run (export_urdf N s "small_passage") f).
