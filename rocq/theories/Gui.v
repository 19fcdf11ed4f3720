(** * Model of gui/task_editor.py.

    The editor is a state and a step function per callback.  matplotlib prints an
    exception raised in a callback and goes on, so a run continues with whatever
    the callback changed before.  Reading files is the parameters [scene_at] and
    [paths_at] (the models of urdfio.import_urdf and io.import_paths on the
    content of the file).  The robot is an object of Pipeline.v with its two
    forms of ik.  Widgets and drawing are left out, except what can raise.
    The log keeps the number of messages only. *)
From Coq Require Import String List Arith Bool Reals.
From Verif Require Import PyBase Cost GraphCommon CppGraph Mat Util Geometry Robot Ik Path Planning Plot Io Pipeline.
Import ListNotations.
Local Open Scope R_scope.

(** task_editor.py:21-32 create_layout_slots: slots[row][col] = [left, bottom, width, height]; 1.0 / 0 raises *)
Definition create_layout_slots (rows cols : nat) (margin : R) : res (list (list (R * R * R * R))) :=
  match rows, cols with
  | O, _ | _, O => Raise ZeroDivisionError
  | _, _ =>
      let slot_h := 1.0 / INR rows in let slot_w := 1.0 / INR cols in
      Ok (map (fun row => map (fun col =>
        (INR col * slot_w + margin, INR row * slot_h + margin, slot_w - 2 * margin, slot_h - 2 * margin)) (seq 0 cols)) (seq 0 rows))
  end.

(** the points of io.py as points of Pipeline.v; [rnd] is what np.random gives for a free orientation *)
Definition as_pathpt (rnd : list (list R)) (p : ppt) : pathpt :=
  match p with Io.PFree x => Pipeline.PFree x rnd | Io.PPos x => Pipeline.PPos x | Io.PEuler x => Pipeline.PEuler x end.
Definition as_path (draws : nat -> list (list R)) (ps : list ppt) : list pathpt :=
  map (fun ip => as_pathpt (draws (fst ip)) (snd ip)) (combine (seq 0 (length ps)) ps).
(** tp.p_nominal, path.py:48, 193; TolPositionPt has none *)
Definition p_nominal (p : ppt) : res (list R) :=
  match p with Io.PFree x => Ok (x ++ [0; 0; 0]) | Io.PPos _ => Raise AttributeError | Io.PEuler e => Ok (e_nominal e) end.

(** task_editor.py:140-143 the frames that plot_setup draws *)
Definition drawn_frames (paths : list (list ppt)) : res (list (list mat4)) :=
  mapM (fun path => mapM (fun tp => p <- p_nominal tp ;; point_to_frame p) path) paths.

(** task_editor.py:95-114 the attributes of TaskEditor *)
Record editor (O : Type) : Type := Ed {
  e_robot : O; e_scene : option coll; e_paths : list (list ppt); e_path : list ppt;
  e_wdir : string; e_filename : string; e_paths_filename : string; e_logged : nat; e_solution : option (list (list R)) }.
Arguments Ed {O}. Arguments e_robot {O}. Arguments e_scene {O}. Arguments e_paths {O}. Arguments e_path {O}. Arguments e_wdir {O}.
Arguments e_filename {O}. Arguments e_paths_filename {O}. Arguments e_logged {O}. Arguments e_solution {O}.

(** what the user does; planning comes with the random numbers drawn *)
Inductive event : Type :=
| SubmitFileName (name : string) | SubmitPathFileName (name : string) | LoadScene | LoadPaths
| Plan (draws : nat -> list (list R)) | ShowPath.

Section Editor.
Context {O : Type} (get : O -> robot) (put : O -> robot -> O).
Context (ik6 : O -> mat4 -> O * res (option (list (list R)))) (ik7 : O -> mat4 -> R -> O * res (option (list (list R)))).
Context (prim : shape -> mat3 -> vec3 -> shape -> mat3 -> vec3 -> bool) (to32 : R -> R).
Context {K : CostStruct} (sq_acc : K -> R -> R -> R -> K) (pq : pqueue K R).
Context (ypr : quat -> vec3) (fuel : nat).
Context (scene_at : string -> res coll) (paths_at : string -> res (list (list ppt))).
Local Notation ed := (editor O).

(** task_editor.py:87-92, 95-114 __init__ *)
Definition new_editor (robot : O) (wdir : string) : ed :=
  Ed robot None [] [] wdir "scenes/path_in_box.urdf" "tasks/path_in_box.json" 0 None.
Definition set_robot (e : ed) (o : O) : ed :=
  Ed o (e_scene e) (e_paths e) (e_path e) (e_wdir e) (e_filename e) (e_paths_filename e) (e_logged e) (e_solution e).
(** task_editor.py:116-119 log *)
Definition log (e : ed) : ed :=
  Ed (e_robot e) (e_scene e) (e_paths e) (e_path e) (e_wdir e) (e_filename e) (e_paths_filename e) (S (e_logged e)) (e_solution e).
Definition full_name (e : ed) (name : string) : string := (e_wdir e ++ "/" ++ name)%string.

(** task_editor.py:136-144 plot_setup *)
Definition plot_setup (e : ed) : ed * res unit :=
  let (r, p) := robot_plot (get (e_robot e)) [0; 0; 1.5; 0; 0; 0; 0] in
  (set_robot e (put (e_robot e) r),
   _ <- p ;;
   sc <- match e_scene e with Some sc => Ok sc | None => Raise AttributeError end ;;
   _ <- coll_plot sc None ;;
   _ <- drawn_frames (e_paths e) ;;
   Ok tt).

(** task_editor.py:127-129 load_scene *)
Definition load_scene (e : ed) : ed * res unit :=
  match scene_at (full_name e (e_filename e)) with
  | Ok sc => plot_setup (Ed (e_robot e) (Some sc) (e_paths e) (e_path e) (e_wdir e) (e_filename e) (e_paths_filename e) (e_logged e) (e_solution e))
  | Raise x => (e, Raise x)
  | OutOfFuel => (e, OutOfFuel)
  end.
(** task_editor.py:131-134 load_paths *)
Definition load_paths (e : ed) : ed * res unit :=
  match paths_at (full_name e (e_paths_filename e)) with
  | Ok ps =>
      let e1 := Ed (e_robot e) (e_scene e) ps (e_path e) (e_wdir e) (e_filename e) (e_paths_filename e) (e_logged e) (e_solution e) in
      match py_index ps 0 with
      | Ok p => plot_setup (Ed (e_robot e) (e_scene e) ps p (e_wdir e) (e_filename e) (e_paths_filename e) (e_logged e) (e_solution e))
      | Raise x => (e1, Raise x)
      | OutOfFuel => (e1, OutOfFuel)
      end
  | Raise x => (e, Raise x)
  | OutOfFuel => (e, OutOfFuel)
  end.

(** robot.is_in_collision(qi, None): the first link (or the base) asks None for tf_s *)
Definition no_scene (call : O * res (option (list (list R)))) : O * res (option (list (list R))) :=
  match call with
  | (o, Ok (Some (q :: _))) =>
      (match r_base (get o) with Some _ => o | None => put o (fst (fk_all_links (get o) q)) end, Raise AttributeError)
  | c => c
  end.
(** task_editor.py:165-169 *)
Definition columns (o : O) (scene : option coll) (path : list pathpt) : O * res (list (qent R)) :=
  if (6 <? ndof (get o))%nat then
    let qf_samples := linspace (-0.5) 0.5 10 in
    match scene with
    | Some sc => simple_columns get put prim to32 ik7 (pt_discretise ypr fuel) sc path qf_samples o None
    | None => simple_columns get put prim to32 (fun o T g => no_scene (ik7 o T g)) (pt_discretise ypr fuel) (Coll [] []) path qf_samples o None
    end
  else
    match scene with
    | Some sc => grid_columns get put prim to32 ik6 (pt_samples ypr fuel 1000) sc path o
    | None => grid_columns get put prim to32 (fun o T => no_scene (ik6 o T)) (pt_samples ypr fuel 1000) (Coll [] []) path o
    end.
(** task_editor.py:162-178 plan *)
Definition plan (draws : nat -> list (list R)) (e0 : ed) : ed * res unit :=
  let e := log e0 in
  let (o, q) := columns (e_robot e) (e_scene e) (as_path draws (e_path e)) in
  let e := set_robot e o in
  match q with
  | Ok Q =>
      let e := log e in
      match get_shortest_path 1 sq_acc pq to32 Q "dijkstra" (Some [1; 1; 1; 1; 1; 1; 1]) with
      | Ok (GspOk rows _) =>
          let e := log e in
          (Ed (e_robot e) (e_scene e) (e_paths e) (e_path e) (e_wdir e) (e_filename e) (e_paths_filename e) (e_logged e) (Some rows), Ok tt)
      | Ok GspFail => (log e, Raise KeyError)
      | Raise x => (e, Raise x)
      | OutOfFuel => (e, OutOfFuel)
      end
  | Raise x => (e, Raise x)
  | OutOfFuel => (e, OutOfFuel)
  end.
(** task_editor.py:180-186 show_path; returns the solution that is animated *)
Definition show_path (e : ed) : ed * res (option (list (list R))) :=
  match e_solution e with
  | Some qs => let (e', r) := plot_setup e in (e', _ <- r ;; Ok (Some qs))
  | None => (log e, Ok None)
  end.

(** the callbacks; the second component is the exception printed, if any *)
Definition step (e : ed) (v : event) : ed * res unit :=
  match v with
  | SubmitFileName name => (Ed (e_robot e) (e_scene e) (e_paths e) (e_path e) (e_wdir e) name (e_paths_filename e) (e_logged e) (e_solution e), Ok tt)
  | SubmitPathFileName name => (Ed (e_robot e) (e_scene e) (e_paths e) (e_path e) (e_wdir e) (e_filename e) name (e_logged e) (e_solution e), Ok tt)
  | LoadScene => load_scene e
  | LoadPaths => load_paths e
  | Plan draws => plan draws e
  | ShowPath => let (e', r) := show_path e in (e', _ <- r ;; Ok tt)
  end.
Definition run (e : ed) (vs : list event) : ed := fold_left (fun e v => fst (step e v)) vs e.
End Editor.

(** ** The editor with the robots that have a complete ik; the other form of ik raises TypeError (robots.py:322, 389) *)
Definition kuka_step prim to32 {K : CostStruct} (sq_acc : K -> R -> R -> R -> K) pq ypr fuel scene_at paths_at :=
  step k_rob kuka_put kuka_call (fun k _ _ => (k, Raise TypeError)) prim to32 sq_acc pq ypr fuel scene_at paths_at.
Definition kuka_run prim to32 {K : CostStruct} (sq_acc : K -> R -> R -> R -> K) pq ypr fuel scene_at paths_at :=
  run k_rob kuka_put kuka_call (fun k _ _ => (k, Raise TypeError)) prim to32 sq_acc pq ypr fuel scene_at paths_at.
Definition rail_step prim to32 {K : CostStruct} (sq_acc : K -> R -> R -> R -> K) pq ypr fuel scene_at paths_at :=
  step rl_rob rail_put (fun rl _ => (rl, Raise TypeError)) rail_call prim to32 sq_acc pq ypr fuel scene_at paths_at.
Definition rail_run prim to32 {K : CostStruct} (sq_acc : K -> R -> R -> R -> K) pq ypr fuel scene_at paths_at :=
  run rl_rob rail_put (fun rl _ => (rl, Raise TypeError)) rail_call prim to32 sq_acc pq ypr fuel scene_at paths_at.
