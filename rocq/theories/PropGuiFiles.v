(** * Property theorems C136: the files, frames and messages of the task editor.

    [run (new_editor robot wdir) vs]: the editor after the callbacks vs, for any
    robot with any two forms of ik.  [last_file d vs], [last_paths_file d vs]: the
    name last submitted in vs, d if none.  [scene_at], [paths_at]: what reading
    the file of that name gives.  [drawn_frames paths]: the frames plot_setup
    draws.  [shown tp T]: T is the frame of point tp.  [columns], the joint
    solutions per path point. *)
From Coq Require Import String List Arith Bool Lia Reals Lra ZArith.
From Verif Require Import PyBase Cost GraphCommon CppGraph Mat Util Geometry Robot Ik Path Planning Io Pipeline PipelineProofs PipelineExamples Plot Gui GuiProofs GuiKuka GuiFiles.
Import ListNotations.
Local Open Scope R_scope.

(** C136: the working directory never changes; the file names are the ones last submitted. *)
Theorem C136_names : forall (O : Type) (get : O -> robot) put ik6 ik7 prim to32 (K : CostStruct) (sq_acc : K -> R -> R -> R -> K) pq ypr fuel scene_at paths_at robot wdir vs,
  let run := run get put ik6 ik7 prim to32 sq_acc pq ypr fuel scene_at paths_at in let e := run (new_editor robot wdir) vs in
  e_wdir e = wdir /\ e_filename e = last_file "scenes/path_in_box.urdf" vs /\ e_paths_filename e = last_paths_file "tasks/path_in_box.json" vs.
Proof. exact @editor_names. Qed.
Print Assumptions C136_names.
Example C136_names_example : last_file "a" [SubmitFileName "b"; SubmitPathFileName "c"; LoadScene] = "b"%string /\ last_paths_file "a" [SubmitFileName "b"; SubmitPathFileName "c"; LoadScene] = "c"%string.
Proof. split; reflexivity. Qed.

(** C136: there is a scene sc exactly if it is what the last loading that read a scene found in the file named then. *)
Theorem C136_scene : forall (O : Type) (get : O -> robot) put ik6 ik7 prim to32 (K : CostStruct) (sq_acc : K -> R -> R -> R -> K) pq ypr fuel scene_at paths_at robot wdir vs sc,
  let run := run get put ik6 ik7 prim to32 sq_acc pq ypr fuel scene_at paths_at in e_scene (run (new_editor robot wdir) vs) = Some sc <->
  exists before after, vs = before ++ LoadScene :: after /\ scene_at (wdir ++ "/" ++ last_file "scenes/path_in_box.urdf" before)%string = Ok sc /\
    forall us ws sc', after = us ++ LoadScene :: ws -> scene_at (wdir ++ "/" ++ last_file "scenes/path_in_box.urdf" (before ++ LoadScene :: us))%string <> Ok sc'.
Proof. exact @scene_read. Qed.
Print Assumptions C136_scene.
(** C136: likewise for the paths. *)
Theorem C136_paths : forall (O : Type) (get : O -> robot) put ik6 ik7 prim to32 (K : CostStruct) (sq_acc : K -> R -> R -> R -> K) pq ypr fuel scene_at paths_at robot wdir vs ps,
  let run := run get put ik6 ik7 prim to32 sq_acc pq ypr fuel scene_at paths_at in ps <> [] ->
  (e_paths (run (new_editor robot wdir) vs) = ps <->
   exists before after, vs = before ++ LoadPaths :: after /\ paths_at (wdir ++ "/" ++ last_paths_file "tasks/path_in_box.json" before)%string = Ok ps /\
    forall us ws ps', after = us ++ LoadPaths :: ws -> paths_at (wdir ++ "/" ++ last_paths_file "tasks/path_in_box.json" (before ++ LoadPaths :: us))%string <> Ok ps').
Proof. exact @paths_read. Qed.
Print Assumptions C136_paths.
Example C136_scene_example : let fs (n : string) := if String.eqb n "d/b" then Ok (Coll [] []) else Raise GenericException in
  fs ("d" ++ "/" ++ last_file "scenes/path_in_box.urdf" [SubmitFileName "b"])%string = Ok (Coll [] []) /\
  fs ("d" ++ "/" ++ last_file "scenes/path_in_box.urdf" [SubmitFileName "b"; LoadScene; SubmitFileName "c"])%string = Raise GenericException.
Proof. split; reflexivity. Qed.

(** C136: the path that is planned is the first of the paths shown, if no file holds an empty list. *)
Theorem C136_path_partial : forall (O : Type) (get : O -> robot) put ik6 ik7 prim to32 (K : CostStruct) (sq_acc : K -> R -> R -> R -> K) pq ypr fuel scene_at paths_at robot wdir vs,
  (forall name, paths_at name <> Ok []) ->
  let run := run get put ik6 ik7 prim to32 sq_acc pq ypr fuel scene_at paths_at in let e := run (new_editor robot wdir) vs in
  e_path e = match e_paths e with [] => [] | p :: _ => p end.
Proof. exact @path_first. Qed.
Print Assumptions C136_path_partial.
Example C136_path_example : forall name : string, (fun _ => Ok [[Io.PFree [1; 2; 3]]]) name <> (Ok [] : res (list (list ppt))).
Proof. intros name. discriminate. Qed.
(** C136: refuted: after a file with an empty list no path is shown, but the first of the previous file is still the one planned. *)
Theorem C136_path_refuted : forall (O : Type) (get : O -> robot) put ik6 ik7 prim to32 (K : CostStruct) (sq_acc : K -> R -> R -> R -> K) pq ypr fuel scene_at robot wdir,
  exists paths_at vs p, let run := run get put ik6 ik7 prim to32 sq_acc pq ypr fuel scene_at paths_at in let e := run (new_editor robot wdir) vs in
  e_paths e = [] /\ e_path e = [p].
Proof. exact @empty_paths. Qed.
Print Assumptions C136_path_refuted.

(** C136: every drawn frame is at its point: unrotated if the orientation is free, else the nominal pose. *)
Theorem C136_frames : forall paths Tss, Forall2 (Forall2 shown) paths Tss -> drawn_frames paths = Ok Tss.
Proof. exact shown_frames. Qed.
Print Assumptions C136_frames.
Example C136_frames_example : Forall2 (Forall2 shown) [[Io.PFree [1; 2; 3]]] [[M4 mid (V3 1 2 3) v0 1]].
Proof. constructor; [|constructor]. constructor; [|constructor]. left. exists 1, 2, 3. auto. Qed.

(** C136: planning logs a message, one more once the joint solutions are there and one more once the search is done; showing logs one if there is no solution; nothing else logs. *)
Theorem C136_messages : forall (O : Type) (get : O -> robot) put ik6 ik7 prim to32 (K : CostStruct) (sq_acc : K -> R -> R -> R -> K) pq ypr fuel scene_at paths_at (e : editor O) v,
  let step := step get put ik6 ik7 prim to32 sq_acc pq ypr fuel scene_at paths_at in exists n, e_logged (fst (step e v)) = (e_logged e + n)%nat /\
  match v with
  | Plan draws => let columns := snd (columns get put ik6 ik7 prim to32 ypr fuel (e_robot e) (e_scene e) (as_path draws (e_path e))) in
      (1 <= n <= 3)%nat /\ ((2 <= n)%nat <-> exists Q, columns = Ok Q) /\
      ((3 <= n)%nat <-> exists Q g, columns = Ok Q /\ get_shortest_path 1 sq_acc pq to32 Q "dijkstra" (Some [1; 1; 1; 1; 1; 1; 1]) = Ok g) /\
      (snd (step e v) = Ok tt -> n = 3%nat)
  | ShowPath => n = (if e_solution e then 0 else 1)%nat
  | _ => n = 0%nat
  end.
Proof. exact @step_logged. Qed.
Print Assumptions C136_messages.
(** ... from the start: one to three messages for every Plan, at most one for every ShowPath. *)
Theorem C136_all_messages : forall (O : Type) (get : O -> robot) put ik6 ik7 prim to32 (K : CostStruct) (sq_acc : K -> R -> R -> R -> K) pq ypr fuel scene_at paths_at robot wdir vs,
  let run := run get put ik6 ik7 prim to32 sq_acc pq ypr fuel scene_at paths_at in (plans vs <= e_logged (run (new_editor robot wdir) vs) <= 3 * plans vs + shows vs)%nat.
Proof. exact @run_logged. Qed.
Print Assumptions C136_all_messages.

(** C136: a file without paths is an IndexError, after the paths are replaced and before the path is. *)
Theorem C136_no_paths : forall (O : Type) (get : O -> robot) put ik6 ik7 prim to32 (K : CostStruct) (sq_acc : K -> R -> R -> R -> K) pq ypr fuel scene_at paths_at (e : editor O),
  let step := step get put ik6 ik7 prim to32 sq_acc pq ypr fuel scene_at paths_at in paths_at (full_name e (e_paths_filename e)) = Ok [] ->
  snd (step e LoadPaths) = Raise IndexError /\ e_paths (fst (step e LoadPaths)) = [] /\ e_path (fst (step e LoadPaths)) = e_path e.
Proof. exact @load_empty. Qed.
Print Assumptions C136_no_paths.

(** C136: a file that cannot be read changes nothing; paths loaded before any
    scene are kept although drawing them raises AttributeError. *)
Theorem C136_missing : forall (O : Type) (get : O -> robot) put ik6 ik7 prim to32 (K : CostStruct) (sq_acc : K -> R -> R -> R -> K) pq ypr fuel scene_at paths_at (e : editor O),
  let step := step get put ik6 ik7 prim to32 sq_acc pq ypr fuel scene_at paths_at in
  (forall x, scene_at (full_name e (e_filename e)) = Raise x -> step e LoadScene = (e, Raise x)) /\
  (forall x, paths_at (full_name e (e_paths_filename e)) = Raise x -> step e LoadPaths = (e, Raise x)) /\
  (forall d p ps, snd (Plot.robot_plot (get (e_robot e)) [0; 0; 1.5; 0; 0; 0; 0]) = Ok d -> e_scene e = None ->
     paths_at (full_name e (e_paths_filename e)) = Ok (p :: ps) ->
     snd (step e LoadPaths) = Raise AttributeError /\ e_paths (fst (step e LoadPaths)) = p :: ps /\ e_path (fst (step e LoadPaths)) = p).
Proof. exact @load_missing. Qed.
Print Assumptions C136_missing.
